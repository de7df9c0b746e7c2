(* The AVX2 build of nghttp3_check_header_value, lib/nghttp3_http.c:960-1028.  A vector register is a
   list of 32 lanes; a lane that a comparison sets to all ones is [true]. *)
From Verif Require Import Base Tables HttpModel HttpSpec HttpProofs.
From Coq Require Import Lia.
Open Scope Z_scope.

(* a byte read as a signed 8-bit lane *)
Definition lane (b : Z) : Z := if b <? 128 then b else b - 256.
Definition mm_set1 (c : Z) : list Z := repeat (lane (c mod 256)) 32.
Fixpoint lanes2 {A B : Type} (f : A -> A -> B) (x y : list A) : list B :=
  match x, y with a :: x', b :: y' => f a b :: lanes2 f x' y' | _, _ => [] end.
Definition mm_cmpgt (x y : list Z) : list bool := lanes2 Z.gtb x y.      (* _mm256_cmpgt_epi8 *)
Definition mm_cmpeq (x y : list Z) : list bool := lanes2 Z.eqb x y.      (* _mm256_cmpeq_epi8 *)
Definition mm_and (x y : list bool) : list bool := lanes2 andb x y.
Definition mm_or (x y : list bool) : list bool := lanes2 orb x y.
Definition mm_andnot (x y : list bool) : list bool := lanes2 (fun a b => negb a && b) x y.   (* (~x) & y *)
(* _mm256_movemask_epi8: bit i is lane i *)
Fixpoint mm_movemask (x : list bool) : Z :=
  match x with [] => 0 | b :: x' => (if b then 1 else 0) + 2 * mm_movemask x' end.

(* contains_bad_header_value_char_avx2, :961-985; [n] blocks of 32 bytes *)
Fixpoint contains_bad_avx2 (n : nat) (p : list Z) : bool :=
  match n with
  | O => false
  | S k =>
    let s := map lane (firstn 32 p) in
    let x := mm_andnot (mm_cmpeq s (mm_set1 9))
               (mm_and (mm_cmpgt s (mm_set1 (0 - 1))) (mm_cmpgt (mm_set1 (31 + 1)) s)) in
    let x := mm_or (mm_cmpeq s (mm_set1 127)) x in
    if negb (mm_movemask x =? 0) then true else contains_bad_avx2 k (skipn 32 p)
  end.
(* nghttp3_check_header_value, :988-1028 *)
Definition check_header_value_avx2 (v : list Z) : bool :=
  let len := Z.of_nat (length v) in
  if len =? 0 then true
  else if (if len =? 1 then is_ws (hd 0 v) else is_ws (hd 0 v) || is_ws (last v 0)) then false
  else if 32 <=? len then
    let last32 := Z.land len (Z.lnot 31) in
    if contains_bad_avx2 (Z.to_nat (last32 / 32)) v then false
    else forallb (in_tbl valid_hd_value_chars) (skipn (Z.to_nat last32) v)
  else forallb (in_tbl valid_hd_value_chars) v.

(* ---- the vector test, lane by lane ---- *)
Definition bad_lane (s : Z) : bool := (s =? 127) || (negb (s =? 9) && ((s >? -1) && (32 >? s))).
Lemma mask_zero : forall x, mm_movemask x = 0 <-> forallb negb x = true.
Proof.
  assert (P : forall x, 0 <= mm_movemask x).
  { induction x as [|b x IH]; cbn [mm_movemask]; [lia|]. destruct b; lia. }
  induction x as [|b x IH]; cbn [mm_movemask forallb]; [tauto|]. specialize (P x).
  destruct b; cbn [negb andb]; [split; [lia|discriminate]|]. rewrite <- IH. lia.
Qed.
Lemma mask_lanes : forall s n, length s = n ->
  forallb negb (lanes2 orb (lanes2 Z.eqb s (repeat 127 n))
      (lanes2 (fun a b => negb a && b) (lanes2 Z.eqb s (repeat 9 n))
         (lanes2 andb (lanes2 Z.gtb s (repeat (-1) n)) (lanes2 Z.gtb (repeat 32 n) s))))
  = forallb (fun a => negb (bad_lane a)) s.
Proof.
  induction s as [|a s IH]; intros n L; subst n; [reflexivity|]. cbn [length repeat lanes2 forallb].
  rewrite (IH (length s) eq_refl). reflexivity.
Qed.
Lemma lane_ok : forall b, is_byte b -> negb (bad_lane (lane b)) = in_tbl valid_hd_value_chars b.
Proof.
  intros b B. apply eq_true_iff_eq. rewrite (value_chars b B). unfold bad_lane, lane, is_byte, between in *.
  destruct (Z.ltb_spec b 128).
  - destruct (Z.eqb_spec b 127); destruct (Z.eqb_spec b 9); destruct (Z.gtb_spec b (-1)); destruct (Z.gtb_spec 32 b); cbn [negb orb andb]; split; intros; try reflexivity; try discriminate; lia.
  - destruct (Z.eqb_spec (b - 256) 127); destruct (Z.eqb_spec (b - 256) 9); destruct (Z.gtb_spec (b - 256) (-1)); destruct (Z.gtb_spec 32 (b - 256)); cbn [negb orb andb]; split; intros; try reflexivity; try discriminate; lia.
Qed.
Lemma blocks_ok : forall n p, bytes p -> (32 * n <= length p)%nat ->
  contains_bad_avx2 n p = negb (forallb (in_tbl valid_hd_value_chars) (firstn (32 * n) p)).
Proof.
  induction n as [|n IH]; intros p B L.
  { rewrite Nat.mul_0_r. reflexivity. }
  cbn [contains_bad_avx2]. cbv zeta.
  assert (Lf : length (map lane (firstn 32 p)) = 32%nat) by (rewrite map_length, firstn_length; lia).
  pose proof (mask_lanes _ _ Lf) as M.
  change (repeat 127 32) with (mm_set1 127) in M. change (repeat 9 32) with (mm_set1 9) in M.
  change (repeat (-1) 32) with (mm_set1 (0 - 1)) in M. change (repeat 32 32) with (mm_set1 (31 + 1)) in M.
  unfold mm_or, mm_cmpeq, mm_cmpgt, mm_and, mm_andnot.
  rewrite <- (firstn_skipn 32 p) in B. apply Forall_app in B. destruct B as (B1 & B2).
  assert (F : forallb (fun a => negb (bad_lane a)) (map lane (firstn 32 p)) = forallb (in_tbl valid_hd_value_chars) (firstn 32 p)).
  { clear -B1. revert B1. generalize (firstn 32 p). induction l as [|b l IH]; intros B; [reflexivity|].
    inversion B; subst. cbn [map forallb]. rewrite lane_ok by assumption. rewrite IH by assumption. reflexivity. }
  replace (32 * S n)%nat with (32 + 32 * n)%nat by lia.
  assert (Sp : firstn (32 + 32 * n) p = firstn 32 p ++ firstn (32 * n) (skipn 32 p)).
  { rewrite <- (firstn_skipn 32 p) at 1. rewrite firstn_app. rewrite firstn_length, Nat.min_l by lia.
    rewrite firstn_firstn, Nat.min_r by lia. f_equal. f_equal. lia. }
  rewrite Sp, forallb_app, <- F, <- M.
  destruct (Z.eqb_spec (mm_movemask (lanes2 orb (lanes2 Z.eqb (map lane (firstn 32 p)) (mm_set1 127))
      (lanes2 (fun a b => negb a && b) (lanes2 Z.eqb (map lane (firstn 32 p)) (mm_set1 9))
         (lanes2 andb (lanes2 Z.gtb (map lane (firstn 32 p)) (mm_set1 (0 - 1))) (lanes2 Z.gtb (mm_set1 (31 + 1)) (map lane (firstn 32 p))))))) 0) as [Z0|Z0]; cbn [negb].
  - rewrite (proj1 (mask_zero _) Z0). cbn [andb]. apply IH; [exact B2|]. rewrite skipn_length. lia.
  - destruct (forallb negb _) eqn:X; [exfalso; apply Z0; apply mask_zero; exact X|]. reflexivity.
Qed.
Lemma check_avx2 : forall v, bytes v -> check_header_value_avx2 v = check_header_value v.
Proof.
  intros v B. unfold check_header_value_avx2, check_header_value. destruct v as [|c v]; [reflexivity|].
  set (w := c :: v) in *. cbv zeta. assert (Lw : (0 < length w)%nat) by (unfold w; cbn [length]; lia).
  destruct (Z.eqb_spec (Z.of_nat (length w)) 0); [lia|].
  assert (W : (if Z.of_nat (length w) =? 1 then is_ws (hd 0 w) else is_ws (hd 0 w) || is_ws (last w 0)) = is_ws c || is_ws (last w 0)).
  { destruct (Z.eqb_spec (Z.of_nat (length w)) 1) as [E|E]; [|reflexivity].
    unfold w in *. destruct v; [|cbn [length] in E; lia]. cbn [hd last]. destruct (is_ws c); reflexivity. }
  rewrite W. destruct (is_ws c || is_ws (last w 0)); [reflexivity|]. cbn [negb andb].
  destruct (Z.leb_spec 32 (Z.of_nat (length w))) as [L|L]; [|reflexivity].
  set (len := Z.of_nat (length w)) in *.
  assert (E32 : Z.land len (Z.lnot 31) = 32 * (len / 32)).
  { rewrite <- Z.ldiff_land. change 31 with (Z.ones 5). rewrite Z.ldiff_ones_r by lia.
    rewrite Z.shiftl_mul_pow2, Z.shiftr_div_pow2 by lia. change (2 ^ 5) with 32. lia. }
  rewrite E32. replace (32 * (len / 32) / 32) with (len / 32) by (rewrite Z.mul_comm, Z.div_mul by lia; reflexivity).
  assert (Q : 0 <= len / 32) by (apply Z.div_pos; lia).
  assert (Q2 : 32 * (len / 32) <= len) by (apply Z.mul_div_le; lia).
  replace (Z.to_nat (32 * (len / 32))) with (32 * Z.to_nat (len / 32))%nat by lia.
  rewrite blocks_ok; [|exact B|unfold len in *; lia].
  rewrite <- (firstn_skipn (32 * Z.to_nat (len / 32)) w) at 3. rewrite forallb_app.
  destruct (forallb _ (firstn _ w)); reflexivity.
Qed.
