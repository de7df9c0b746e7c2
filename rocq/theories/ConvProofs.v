From Verif Require Import Base BaseLemmas Tables ConvModel ConvSpec.
From Coq Require Import Zify ZifyNat.
Ltac Zify.zify_post_hook ::= Z.div_mod_to_equations.

Lemma byte_quarter b : is_byte b -> b / 64 = 0 \/ b / 64 = 1 \/ b / 64 = 2 \/ b / 64 = 3.
Proof. unfold is_byte; lia. Qed.

Lemma get_varintlen_spec b : is_byte b -> get_varintlen b = Z.to_nat (2 ^ (b / 64)).
Proof.
  intros H; unfold get_varintlen.
  rewrite Z.shiftr_div_pow2 by lia. change (2^6) with 64.
  rewrite Z.shiftl_mul_pow2 by (unfold is_byte in H; lia). f_equal; lia.
Qed.

Lemma get_varintlen_cases b : is_byte b ->
  (b < 64 /\ get_varintlen b = 1%nat) \/ (64 <= b < 128 /\ get_varintlen b = 2%nat) \/
  (128 <= b < 192 /\ get_varintlen b = 4%nat) \/ (192 <= b /\ get_varintlen b = 8%nat).
Proof.
  intros H; rewrite get_varintlen_spec by auto.
  destruct (byte_quarter b H) as [E|[E|[E|E]]]; rewrite E; unfold is_byte in H; cbn; lia.
Qed.

Lemma land63 b : Z.land b 63 = b mod 64.
Proof. change 63 with (Z.ones 6). rewrite Z.land_ones by lia. reflexivity. Qed.

Lemma get_varint_rfc l : bytes l -> get_varint l = rfc_varint l.
Proof.
  intros Hl; destruct l as [|b l]; [reflexivity|].
  pose proof Hl as Hl'. apply bytes_cons in Hl' as [Hb _].
  unfold get_varint, rfc_varint. rewrite <- get_varintlen_spec by auto.
  destruct (take_exact (get_varintlen b) (b :: l)) as [[bs rest]|] eqn:E; [|reflexivity].
  apply take_exact_spec in E as [E1 E2].
  destruct bs as [|h t].
  { cbn in E2. exfalso. destruct (get_varintlen_cases b Hb) as [H|[H|[H|H]]]; lia. }
  cbn in E1; injection E1 as -> E1.
  f_equal; f_equal. rewrite land63, !be_val_cons.
  rewrite E1 in Hl. apply bytes_cons in Hl as [_ Hl]; apply bytes_app in Hl as [Ht _].
  pose proof (be_val_range t Ht) as Hr.
  cbn [length] in E2. unfold is_byte in Hb.
  assert (zlen t = Z.of_nat (get_varintlen h) - 1) as Ht2 by (unfold zlen; lia).
  rewrite Ht2 in *.
  destruct (get_varintlen_cases h Hb) as [[H1 H2]|[[H1 H2]|[[H1 H2]|[H1 H2]]]];
    rewrite H2 in *; cbn in Hr |- *;
    match goal with |- context [2 ^ (h / 64)] =>
      first [ replace (h/64) with 0 by lia | replace (h/64) with 1 by lia
            | replace (h/64) with 2 by lia | replace (h/64) with 3 by lia ] end;
    cbn in Hr |- *; lia.
Qed.

Lemma get_varint_range l v rest :
  bytes l -> get_varint l = Some (v, rest) ->
  wire_int v /\ exists pre, l = pre ++ rest /\ (zlen pre = 1 \/ zlen pre = 2 \/ zlen pre = 4 \/ zlen pre = 8).
Proof.
  intros Hl H. destruct l as [|b l]; [discriminate|].
  pose proof Hl as Hl'. apply bytes_cons in Hl' as [Hb _].
  unfold get_varint in H.
  destruct (take_exact (get_varintlen b) (b :: l)) as [[bs r]|] eqn:E; [|discriminate].
  apply take_exact_spec in E as [E1 E2].
  destruct bs as [|h t]; [discriminate|]. injection H as <- <-.
  assert (bytes t) as Ht.
  { rewrite E1 in Hl. apply bytes_app in Hl as [Hl _]. apply bytes_cons in Hl; tauto. }
  assert (Hh : is_byte h). { cbn in E1; injection E1 as <- _; auto. }
  split.
  - unfold wire_int. rewrite land63, be_val_cons.
    pose proof (be_val_range t Ht) as Hr. unfold is_byte in Hh.
    assert (zlen t = Z.of_nat (length t)) as Hz by reflexivity. cbn [length] in E2.
    destruct (get_varintlen_cases b Hb) as [[H1 H2]|[[H1 H2]|[[H1 H2]|[H1 H2]]]];
      rewrite H2 in E2; injection E2 as E2; rewrite E2 in Hz; cbn in Hz; rewrite Hz in *;
      cbn in Hr |- *; lia.
  - exists (h :: t); split; [exact E1|]. unfold zlen; rewrite E2.
    destruct (get_varintlen_cases b Hb) as [[H1 H2]|[[H1 H2]|[[H1 H2]|[H1 H2]]]]; rewrite H2; cbn; auto.
Qed.

(* Setting flag bits that are clear in the byte is addition. *)
Lemma lor_disjoint a m : Z.land a m = 0 -> Z.lor a m = a + m.
Proof. intros H. rewrite <- Z.lxor_lor by auto. symmetry; apply Z.add_nocarry_lxor; auto. Qed.

Lemma land_low_high a k m : 0 <= k -> 0 <= a < 2 ^ k -> Z.land a (m * 2 ^ k) = 0.
Proof.
  intros Hk Ha. apply Z.bits_inj'; intros i Hi. rewrite Z.land_spec, Z.bits_0.
  destruct (Z.ltb_spec i k).
  - rewrite Z.mul_pow2_bits_low by lia. apply andb_false_r.
  - assert (Z.testbit a i = false) as ->; [|reflexivity].
    destruct (Z.eq_dec a 0) as [->|Hne]; [apply Z.bits_0|].
    apply Z.bits_above_log2; [lia|].
    assert (Z.log2 a < k) by (apply Z.log2_lt_pow2; lia). lia.
Qed.

Lemma lor64 a : 0 <= a < 64 -> Z.lor a 64 = a + 64.
Proof. intros; apply lor_disjoint. change 64 with (1 * 2^6). apply land_low_high; lia. Qed.
Lemma lor128 a : 0 <= a < 64 -> Z.lor a 128 = a + 128.
Proof. intros; apply lor_disjoint. change 128 with (2 * 2^6). apply land_low_high; lia. Qed.
Lemma lor192 a : 0 <= a < 64 -> Z.lor a 192 = a + 192.
Proof. intros; apply lor_disjoint. change 192 with (3 * 2^6). apply land_low_high; lia. Qed.

(* A big-endian string with a flagged first byte reads back. *)
Lemma put_get_aux k n m l :
  (k = 1%nat \/ k = 2%nat \/ k = 4%nat \/ k = 8%nat) ->
  0 <= n < 2 ^ (8 * Z.of_nat k - 2) ->
  0 <= m < 4 -> Z.of_nat k = 2 ^ m ->
  (forall a, 0 <= a < 64 -> Z.lor a (64 * m) = a + 64 * m) ->
  l = or_first (64 * m) (be_bytes k n) ->
  bytes l /\ zlen l = Z.of_nat k /\ forall rest, get_varint (l ++ rest) = Some (n, rest).
Proof.
  intros Hk Hn Hm Hkm Hor ->.
  destruct k as [|k]; [lia|]. cbn [be_bytes or_first].
  set (a := (n / 256 ^ Z.of_nat k) mod 256).
  assert (0 <= a < 64) as Ha.
  { subst a. destruct Hk as [E|[E|[E|E]]]; try lia; injection E as ->; cbn in Hn |- *; lia. }
  rewrite Hor by auto.
  pose proof (be_bytes_bytes k n) as Hb.
  assert (bytes ((a + 64 * m) :: be_bytes k n)) as Hby by (apply bytes_cons; split; [unfold is_byte; lia|auto]).
  split; [auto|]. split; [rewrite zlen_cons; unfold zlen; rewrite be_bytes_length; lia|].
  intros rest. cbn [app].
  assert (is_byte (a + 64 * m)) as Hisb by (unfold is_byte; lia).
  unfold get_varint. rewrite get_varintlen_spec by auto.
  replace ((a + 64 * m) / 64) with m by lia.
  rewrite <- Hkm, Nat2Z.id.
  change ((a + 64 * m) :: be_bytes k n ++ rest) with (((a + 64 * m) :: be_bytes k n) ++ rest).
  replace (S k) with (length ((a + 64 * m) :: be_bytes k n)) by (cbn; rewrite be_bytes_length; auto).
  rewrite take_exact_app. f_equal; f_equal.
  rewrite land63. replace ((a + 64 * m) mod 64) with a by lia.
  rewrite be_val_cons, be_val_be_bytes by lia.
  unfold zlen; rewrite be_bytes_length. subst a.
  destruct Hk as [E|[E|[E|E]]]; try lia; injection E as ->; cbn in Hn |- *; lia.
Qed.

Lemma put_varint_correct n : wire_int n ->
  exists l, put_varint n = Some l /\ bytes l /\ put_varintlen n = Some (zlen l) /\
    (zlen l = 1 \/ zlen l = 2 \/ zlen l = 4 \/ zlen l = 8) /\
    (forall k, (k = 1 \/ k = 2 \/ k = 4 \/ k = 8) -> n < 2 ^ (8 * k - 2) -> zlen l <= k) /\
    (forall rest, get_varint (l ++ rest) = Some (n, rest)).
Proof.
  unfold wire_int; intros Hn. change (2^62) with 4611686018427387904 in Hn.
  unfold put_varint, put_varintlen.
  destruct (Z.ltb_spec n 64).
  { assert (or_first (64 * 0) (be_bytes 1 n) = [n mod 256]) as E.
    { cbn [be_bytes or_first]. change (Z.of_nat 0) with 0. change (256^0) with 1.
      rewrite Z.div_1_r, Z.mul_0_r, Z.lor_0_r. reflexivity. }
    destruct (put_get_aux 1 n 0 [n mod 256]) as (HA & HB & HC); auto; try (cbn; lia).
    exists [n mod 256]; repeat split; auto. rewrite HB; intros; cbn; lia. }
  destruct (Z.ltb_spec n 16384).
  { destruct (put_get_aux 2 n 1 (or_first 64 (be_bytes 2 n))) as (HA & HB & HC); auto; try (cbn; lia).
    { intros; apply lor64; auto. }
    eexists; split; [reflexivity|]; repeat split; auto.
    rewrite HB; intros k [ -> | [ -> | [ -> | -> ]]] Hk; cbn in Hk |- *; lia. }
  destruct (Z.ltb_spec n 1073741824).
  { destruct (put_get_aux 4 n 2 (or_first 128 (be_bytes 4 n))) as (HA & HB & HC); auto; try (cbn; lia).
    { intros; apply lor128; auto. }
    eexists; split; [reflexivity|]; repeat split; auto.
    rewrite HB; intros k [ -> | [ -> | [ -> | -> ]]] Hk; cbn in Hk |- *; lia. }
  destruct (Z.ltb_spec n 4611686018427387904); [|lia].
  destruct (put_get_aux 8 n 3 (or_first 192 (be_bytes 8 n))) as (HA & HB & HC); auto 6; try (cbn; lia).
  { intros; apply lor192; auto. }
  eexists; split; [reflexivity|]; repeat split; auto 6.
  rewrite HB; intros k [ -> | [ -> | [ -> | -> ]]] Hk; cbn in Hk |- *; lia.
Qed.

Lemma put_varint_oversize n : 2 ^ 62 <= n -> put_varint n = None /\ put_varintlen n = None.
Proof.
  change (2^62) with 4611686018427387904; intros H. unfold put_varint, put_varintlen.
  repeat match goal with |- context [?a <? ?b] => destruct (Z.ltb_spec a b); try lia end. auto.
Qed.

(* ---------------- incremental reader ---------------- *)
Definition mask_first (l : list Z) : list Z := match l with [] => [] | h :: t => Z.land h 63 :: t end.

Lemma mask_first_zlen l : zlen (mask_first l) = zlen l.
Proof. destruct l; cbn; auto. Qed.

(* State after the proper prefix [pre] of the integer has been read. *)
Definition rv_after (pre : list Z) : rvint :=
  match pre with
  | [] => rv_reset
  | b :: _ => let d := Z.of_nat (get_varintlen b) - zlen pre in
              mkrv (be_val (mask_first pre) * 256 ^ d) d
  end.

Lemma get_varint_unfold b t :
  get_varint (b :: t) =
  if (length (b :: t) <? get_varintlen b)%nat then None
  else match firstn (get_varintlen b) (b :: t) with
       | [] => None
       | _ => Some (be_val (mask_first (firstn (get_varintlen b) (b :: t))), skipn (get_varintlen b) (b :: t))
       end.
Proof.
  unfold get_varint.
  destruct (Nat.ltb_spec (length (b :: t)) (get_varintlen b)) as [H|H].
  - rewrite (proj2 (take_exact_None _ _ _) H). reflexivity.
  - rewrite take_exact_firstn by lia.
    destruct (firstn (get_varintlen b) (b :: t)); reflexivity.
Qed.

Lemma get_varintlen_pos b : is_byte b -> (1 <= get_varintlen b <= 8)%nat.
Proof. intros H; destruct (get_varintlen_cases b H) as [H1|[H1|[H1|H1]]]; lia. Qed.

Lemma mask_first_app a b : a <> [] -> mask_first (a ++ b) = mask_first a ++ b.
Proof. destruct a; [congruence|reflexivity]. Qed.

Lemma feed_varint_spec ps : forall pre fin,
  Forall (fun p => p <> []) ps -> bytes (pre ++ concat ps) ->
  (match pre with [] => True | b :: _ => (length pre < get_varintlen b)%nat end) ->
  feed_varint (rv_after pre) ps fin =
  match ps with
  | [] => Ok None
  | _ => match get_varint (pre ++ concat ps) with
         | Some r => Ok (Some r)
         | None => if fin then Err ERR_INVALID_ARGUMENT else Ok None
         end
  end.
Proof.
  induction ps as [|p ps IH]; intros pre fin Hne Hby Hpre; [reflexivity|].
  inversion Hne as [|? ? Hp Hps]; subst. clear Hne.
  cbn [feed_varint concat].
  destruct p as [|x p]; [congruence|]. clear Hp.
  set (P := x :: p) in *.
  set (fl := fin && match ps with [] => true | _ :: _ => false end).
  assert (HPl : 1 <= zlen P) by (subst P; rewrite zlen_cons; pose proof (zlen_nonneg _ p); lia).
  (* the first byte of the whole integer *)
  destruct (pre ++ P) as [|b0 tl0] eqn:Eall; [destruct pre; subst P; discriminate|].
  assert (is_byte b0) as Hb0.
  { cbn [concat] in Hby. rewrite app_assoc, Eall in Hby. apply bytes_app in Hby as [Hby _].
    apply bytes_cons in Hby; tauto. }
  pose proof (get_varintlen_pos b0 Hb0) as Hvl.
  set (vl := get_varintlen b0) in *.
  assert (Hlt : (length pre < vl)%nat).
  { destruct pre as [|q pre]; [cbn; lia|]. cbn in Eall; injection Eall as -> _. exact Hpre. }
  (* what read_varint returns *)
  assert (Hread :
    read_varint (rv_after pre) P fl =
    if (length (pre ++ P) <? vl)%nat
    then if fl then Err ERR_INVALID_ARGUMENT else Ok (rv_after (pre ++ P), zlen P)
    else Ok (mkrv (be_val (mask_first (firstn vl (pre ++ P)))) 0, Z.of_nat vl - zlen pre)).
  { destruct pre as [|q pre].
    - cbn [app] in *. subst P. injection Eall as -> ->.
      unfold read_varint, rv_after, rv_reset. cbn [rv_left rv_acc Z.eqb negb].
      fold vl.
      destruct (Nat.ltb_spec (length (b0 :: tl0)) vl) as [Hs|Hs].
      + destruct (Z.leb_spec (Z.of_nat vl) (Z.min (Z.of_nat vl) (zlen (b0 :: tl0)))) as [H|H];
          [unfold zlen in H; lia|].
        destruct fl; [reflexivity|].
        replace (Z.min (Z.of_nat vl) (zlen (b0 :: tl0))) with (zlen (b0 :: tl0)) by (unfold zlen; lia).
        rewrite zlen_length, firstn_all. fold vl. reflexivity.
      + destruct (Z.leb_spec (Z.of_nat vl) (Z.min (Z.of_nat vl) (zlen (b0 :: tl0)))) as [H|H];
          [|unfold zlen in H; lia].
        rewrite get_varint_unfold. fold vl.
        destruct (Nat.ltb_spec (length (b0 :: tl0)) vl); [lia|].
        destruct (firstn vl (b0 :: tl0)) eqn:E.
        { destruct vl; [lia|]; discriminate. }
        rewrite zlen_nil, Z.sub_0_r. reflexivity.
    - cbn in Eall; injection Eall as -> Eall.
      unfold read_varint. cbn [rv_after rv_left rv_acc]. fold vl.
      change (b0 :: pre) with ([b0] ++ pre) in Hlt. 
      remember (b0 :: pre) as Q eqn:EQ.
      assert (HQl : zlen Q < Z.of_nat vl) by (unfold zlen; subst Q; cbn in Hlt |- *; lia).
      destruct (Z.eqb_spec (Z.of_nat vl - zlen Q) 0) as [H|_]; [lia|].
      subst P. set (P := x :: p) in *.
      destruct (Nat.ltb_spec (length (Q ++ P)) vl) as [Hs|Hs].
      + assert (zlen Q + zlen P < Z.of_nat vl) as Hs' by (unfold zlen; rewrite app_length in Hs; lia).
        replace (Z.min (Z.of_nat vl - zlen Q) (zlen P)) with (zlen P) by lia.
        rewrite zlen_length, firstn_all.
        destruct (Z.eqb_spec (Z.of_nat vl - zlen Q - zlen P) 0) as [H|_]; [lia|].
        destruct fl; [reflexivity|]. unfold P at 1; cbv iota.
        apply f_equal. apply (f_equal2 pair); [|reflexivity].
        rewrite EQ; cbn [app rv_after]. fold vl.
        change (b0 :: pre ++ P) with ((b0 :: pre) ++ P). rewrite <- EQ.
        rewrite zlen_app. cbv zeta; apply (f_equal2 mkrv); [|lia].
        rewrite mask_first_app by (subst Q; discriminate).
        rewrite be_val_app.
        replace (Z.of_nat vl - zlen Q) with (zlen P + (Z.of_nat vl - (zlen Q + zlen P))) by lia.
        rewrite Z.pow_add_r by lia.
        replace (zlen P + (Z.of_nat vl - (zlen Q + zlen P)) - zlen P)
          with (Z.of_nat vl - (zlen Q + zlen P)) by lia. lia.
      + assert (zlen Q + zlen P >= Z.of_nat vl) as Hs' by (unfold zlen; rewrite app_length in Hs; lia).
        replace (Z.min (Z.of_nat vl - zlen Q) (zlen P)) with (Z.of_nat vl - zlen Q) by lia.
        replace (Z.of_nat vl - zlen Q - (Z.of_nat vl - zlen Q)) with 0 by lia.
        cbn [Z.eqb]. unfold P at 1; cbv iota.
        apply f_equal. apply (f_equal2 pair); [|reflexivity]. apply (f_equal2 mkrv); [|reflexivity].
        rewrite firstn_app. rewrite (firstn_all2 Q) by (unfold zlen in HQl; lia).
        rewrite mask_first_app by (subst Q; discriminate).
        rewrite be_val_app. replace (Z.to_nat (Z.of_nat vl - zlen Q)) with (vl - length Q)%nat
          by (unfold zlen; lia).
        assert (zlen (firstn (vl - length Q) P) = Z.of_nat vl - zlen Q) as ->.
        { unfold zlen; rewrite firstn_length_le; [unfold zlen in HQl; lia|].
          unfold zlen in Hs'; lia. }
        change (256^0) with 1; lia. }
  rewrite Hread. clear Hread.
  assert (Hg : get_varint (pre ++ P ++ concat ps) =
     if (length (pre ++ P ++ concat ps) <? vl)%nat then None
     else Some (be_val (mask_first (firstn vl (pre ++ P ++ concat ps))), skipn vl (pre ++ P ++ concat ps))).
  { rewrite app_assoc, Eall. cbn [app]. rewrite get_varint_unfold. fold vl.
    destruct (length (b0 :: tl0 ++ concat ps) <? vl)%nat; [reflexivity|].
    destruct (firstn vl (b0 :: tl0 ++ concat ps)) eqn:E; [|reflexivity].
    destruct vl; [lia|discriminate]. }
  rewrite Hg.
  destruct (Nat.ltb_spec (length (pre ++ P)) vl) as [Hs|Hs].
  - (* piece exhausted, integer incomplete *)
    subst fl. destruct ps as [|p2 ps].
    + cbn [concat]. rewrite app_nil_r.
      destruct (Nat.ltb_spec (length (pre ++ P)) vl); [|lia].
      destruct fin; cbn [andb]; [reflexivity|].
      rewrite Eall. cbn [rv_after rv_left feed_varint].
      fold vl. rewrite <- Eall.
      destruct (Z.eqb_spec (Z.of_nat vl - zlen (pre ++ P)) 0) as [H'|_]; [unfold zlen in H'; lia|].
      reflexivity.
    + rewrite andb_false_r.
      assert (rv_left (rv_after (pre ++ P)) =? 0 = false) as ->.
      { rewrite Eall; cbn [rv_after rv_left]. fold vl. rewrite <- Eall. unfold zlen. lia. }
      rewrite IH.
      * rewrite <- Hg, <- app_assoc. reflexivity.
      * auto.
      * rewrite <- app_assoc. exact Hby.
      * rewrite Eall. fold vl. rewrite <- Eall. auto.
  - cbn [rv_left rv_acc Z.eqb].
    destruct (Nat.ltb_spec (length (pre ++ P ++ concat ps)) vl) as [H|_].
    { rewrite app_assoc, app_length in H; lia. }
    f_equal; f_equal; f_equal.
    + rewrite app_assoc, (firstn_app vl (pre ++ P)).
      replace (vl - length (pre ++ P))%nat with 0%nat by lia.
      cbn [firstn]. rewrite app_nil_r. reflexivity.
    + rewrite skipn_app, (skipn_all2 pre) by lia. cbn [app].
      rewrite skipn_app. replace (vl - length pre - length P)%nat with 0%nat
        by (rewrite app_length in Hs; lia).
      cbn [skipn]. do 2 f_equal. unfold zlen; lia.
Qed.

(* ---------------- frames ---------------- *)
Lemma rfc_varint_put n l : wire_int n -> put_varint n = Some l ->
  forall rest, bytes rest -> rfc_varint (l ++ rest) = Some (n, rest).
Proof.
  intros Hn Hl rest Hr. destruct (put_varint_correct n Hn) as (l' & H1 & H2 & H3 & H4 & H5 & H6).
  rewrite Hl in H1; injection H1 as <-.
  rewrite <- get_varint_rfc by (apply bytes_app; auto). auto.
Qed.

Lemma wire_int_small n : 0 <= n <= 1000000 -> wire_int n.
Proof. unfold wire_int; change (2^62) with 4611686018427387904; lia. Qed.

(* A frame made of header for [zlen payload] and [payload]. *)
Lemma frame_write_hd_correct ty len : wire_int ty -> wire_int len ->
  exists h, frame_write_hd ty len = Some h /\ bytes h /\
    frame_write_hd_len ty len = Some (zlen h) /\
    (exists a b, h = a ++ b /\ put_varint ty = Some a /\ put_varint len = Some b).
Proof.
  intros Ht Hl.
  destruct (put_varint_correct ty Ht) as (a & A1 & A2 & A3 & _ & _ & _).
  destruct (put_varint_correct len Hl) as (b & B1 & B2 & B3 & _ & _ & _).
  unfold frame_write_hd, frame_write_hd_len; rewrite A1, B1, A3, B3; cbn [bind].
  exists (a ++ b); repeat split; auto.
  - apply bytes_app; auto.
  - rewrite zlen_app; auto.
  - exists a, b; auto.
Qed.

Lemma rfc_frame_of ty payload h rest : wire_int ty -> wire_int (zlen payload) ->
  bytes payload -> bytes rest ->
  frame_write_hd ty (zlen payload) = Some h ->
  rfc_frame (h ++ payload ++ rest) = Some (ty, payload, rest).
Proof.
  intros Ht Hl Hp Hr Hh.
  destruct (frame_write_hd_correct ty (zlen payload) Ht Hl) as (h' & H1 & H2 & H3 & a & b & -> & Ha & Hb).
  rewrite Hh in H1; injection H1 as ->.
  apply bytes_app in H2 as [Ba Bb].
  unfold rfc_frame. rewrite <- app_assoc.
  rewrite (rfc_varint_put ty a Ht Ha) by (repeat (apply bytes_app; split); auto).
  rewrite (rfc_varint_put _ b Hl Hb) by (repeat (apply bytes_app; split); auto).
  rewrite zlen_length, take_exact_app. reflexivity.
Qed.

Lemma settings_payload_correct iv :
  Forall (fun e => wire_int (fst e) /\ wire_int (snd e)) iv ->
  exists p, write_settings_entries iv = Some p /\ bytes p /\
    settings_payloadlen iv = Some (zlen p) /\ rfc_settings_payload p iv.
Proof.
  induction iv as [|[id v] iv IH]; intros H; cbn [write_settings_entries settings_payloadlen].
  - exists []; repeat split; constructor.
  - inversion H as [|? ? [H1 H2] H3]; subst; cbn [fst snd] in *.
    destruct (IH H3) as (p & -> & Bp & -> & Rp).
    destruct (put_varint_correct id H1) as (a & A1 & A2 & A3 & _).
    destruct (put_varint_correct v H2) as (b & B1 & B2 & B3 & _).
    rewrite A1, B1, A3, B3; cbn [bind].
    exists (a ++ b ++ p); repeat split.
    + repeat (apply bytes_app; split); auto.
    + rewrite !zlen_app; f_equal; lia.
    + econstructor; [| |exact Rp].
      * apply rfc_varint_put with (1:=H1) (2:=A1). apply bytes_app; auto.
      * apply rfc_varint_put with (1:=H2) (2:=B1); auto.
Qed.

Lemma frame_settings_correct iv n total :
  Forall (fun e => wire_int (fst e) /\ wire_int (snd e)) iv ->
  frame_write_settings_len iv = Some (n, total) -> wire_int n ->
  exists f payload, frame_write_settings n iv = Some f /\ bytes f /\ zlen f = total /\
    zlen payload = n /\ rfc_settings_payload payload iv /\
    forall rest, bytes rest -> rfc_frame (f ++ rest) = Some (FRAME_SETTINGS, payload, rest).
Proof.
  intros Hiv Hlen Hn.
  destruct (settings_payload_correct iv Hiv) as (p & E1 & Bp & E2 & Rp).
  unfold frame_write_settings_len in Hlen; rewrite E2 in Hlen; cbn [bind] in Hlen.
  assert (Ht : wire_int FRAME_SETTINGS) by (apply wire_int_small; unfold FRAME_SETTINGS; lia).
  assert (n = zlen p) as ->.
  { destruct (put_varintlen FRAME_SETTINGS); [|discriminate].
    cbn [bind] in Hlen. destruct (put_varintlen (zlen p)); [|discriminate].
    cbn [bind] in Hlen. congruence. }
  destruct (frame_write_hd_correct FRAME_SETTINGS (zlen p) Ht Hn) as (h & H1 & H2 & H3 & _).
  unfold frame_write_hd_len in H3.
  destruct (put_varintlen FRAME_SETTINGS) as [x|]; [|discriminate].
  cbn [bind] in H3, Hlen. destruct (put_varintlen (zlen p)) as [y|]; [|discriminate].
  cbn [bind] in H3, Hlen.
  exists (h ++ p), p. unfold frame_write_settings. rewrite H1, E1; cbn [bind].
  repeat split; auto.
  - apply bytes_app; auto.
  - rewrite zlen_app; injection H3 as H3; injection Hlen as Hlen. lia.
  - intros rest Hr. rewrite <- app_assoc. apply rfc_frame_of; auto.
Qed.

Lemma frame_goaway_correct id : wire_int id ->
  exists n total f payload, frame_write_goaway_len id = Some (n, total) /\
    frame_write_goaway n id = Some f /\ bytes f /\ zlen f = total /\ zlen payload = n /\
    rfc_varint payload = Some (id, []) /\
    forall rest, bytes rest -> rfc_frame (f ++ rest) = Some (FRAME_GOAWAY, payload, rest).
Proof.
  intros Hid.
  destruct (put_varint_correct id Hid) as (p & A1 & A2 & A3 & A4 & _).
  assert (Ht : wire_int FRAME_GOAWAY) by (apply wire_int_small; unfold FRAME_GOAWAY; lia).
  assert (Hn : wire_int (zlen p)) by (apply wire_int_small; lia).
  destruct (frame_write_hd_correct FRAME_GOAWAY (zlen p) Ht Hn) as (h & H1 & H2 & H3 & _).
  unfold frame_write_hd_len in H3.
  unfold frame_write_goaway_len, frame_write_goaway. rewrite A3; cbn [bind].
  destruct (put_varintlen FRAME_GOAWAY) as [x|]; [|discriminate]; cbn [bind] in *.
  destruct (put_varintlen (zlen p)) as [y|]; [|discriminate]; cbn [bind] in *.
  exists (zlen p), (x + y + zlen p), (h ++ p), p.
  rewrite H1, A1; cbn [bind].
  repeat split; auto.
  - apply bytes_app; auto.
  - rewrite zlen_app; injection H3 as H3; lia.
  - rewrite <- (app_nil_r p) at 1. apply rfc_varint_put; auto. constructor.
  - intros rest Hr. rewrite <- app_assoc. apply rfc_frame_of; auto.
Qed.

Lemma frame_priority_update_correct ty id data n total :
  wire_int ty -> wire_int id -> bytes data ->
  frame_write_priority_update_len ty id data = Some (n, total) ->
  exists f payload, frame_write_priority_update ty n id data = Some f /\ bytes f /\
    zlen f = total /\ zlen payload = n /\ rfc_varint payload = Some (id, data) /\
    forall rest, bytes rest -> rfc_frame (f ++ rest) = Some (ty, payload, rest).
Proof.
  intros Ht Hid Hd Hlen.
  destruct (put_varint_correct id Hid) as (p & A1 & A2 & A3 & A4 & _).
  unfold frame_write_priority_update_len in Hlen. rewrite A3 in Hlen; cbn [bind] in Hlen.
  rewrite <- zlen_app in Hlen.
  assert (Hn : wire_int (zlen (p ++ data))).
  { destruct (Z.ltb_spec (zlen (p ++ data)) (2^62)).
    - split; [apply zlen_nonneg|auto].
    - destruct (put_varint_oversize _ H) as [_ E]. rewrite E in Hlen.
      destruct (put_varintlen ty); discriminate. }
  destruct (frame_write_hd_correct ty (zlen (p ++ data)) Ht Hn) as (h & H1 & H2 & H3 & _).
  unfold frame_write_hd_len in H3.
  destruct (put_varintlen ty) as [x|]; [|discriminate]; cbn [bind] in *.
  destruct (put_varintlen (zlen (p ++ data))) as [y|]; [|discriminate]; cbn [bind] in *.
  injection Hlen as <- <-.
  exists (h ++ p ++ data), (p ++ data).
  unfold frame_write_priority_update. rewrite H1, A1; cbn [bind].
  repeat split; auto.
  - repeat (apply bytes_app; split); auto.
  - rewrite (zlen_app _ h); injection H3 as H3; lia.
  - apply rfc_varint_put; auto.
  - intros rest Hr. rewrite <- app_assoc. apply rfc_frame_of; auto. apply bytes_app; auto.
Qed.

(* ---------------- downcase / nva_copy ---------------- *)

Definition all_bytes : list Z := map Z.of_nat (seq 0 256).
Lemma all_bytes_in b : is_byte b -> In b all_bytes.
Proof.
  unfold is_byte, all_bytes; intros H. apply in_map_iff; exists (Z.to_nat b); split; [lia|].
  apply in_seq; lia.
Qed.
Lemma byte_sweep (P : Z -> bool) : forallb P all_bytes = true -> forall b, is_byte b -> P b = true.
Proof. intros H b Hb. apply (proj1 (forallb_forall _ _) H), all_bytes_in, Hb. Qed.

Lemma downcase_byte_spec b : is_byte b -> downcase_byte b = ascii_lower b.
Proof.
  intros H. apply Z.eqb_eq.
  exact (byte_sweep (fun b => downcase_byte b =? ascii_lower b) ltac:(vm_compute; reflexivity) b H).
Qed.

Lemma nva_copy_correct l : Forall (fun x => bytes (nv_name x)) l ->
  Forall2 (fun x y => nv_value y = nv_value x /\ nv_flags y = nv_flags x /\
     nv_name y = if Z.testbit (nv_flags x) 1 then nv_name x else map ascii_lower (nv_name x)) l (nva_copy l).
Proof.
  intros H; induction H as [|x l Hx Hl IH]; cbn [nva_copy map]; constructor; auto.
  unfold nv_copy, NV_FLAG_NO_COPY_NAME.
  assert (E : negb (Z.land (nv_flags x) 2 =? 0) = Z.testbit (nv_flags x) 1).
  { destruct (Z.testbit (nv_flags x) 1) eqn:E.
    - apply negb_true_iff, Z.eqb_neq. intros H0.
      assert (Z.testbit (Z.land (nv_flags x) 2) 1 = true) by (rewrite Z.land_spec, E; reflexivity).
      rewrite H0 in H; rewrite Z.bits_0 in H; discriminate.
    - apply negb_false_iff, Z.eqb_eq. apply Z.bits_inj'; intros i Hi.
      rewrite Z.land_spec, Z.bits_0. change 2 with (2^1). rewrite Z.pow2_bits_eqb by lia.
      destruct (Z.eqb_spec 1 i); [subst; rewrite E; auto|apply andb_false_r]. }
  rewrite E. destruct (Z.testbit (nv_flags x) 1); cbn; repeat split; auto.
  unfold downcase. apply map_ext_in. intros b Hb. apply downcase_byte_spec.
  exact (proj1 (Forall_forall _ _) Hx b Hb).
Qed.

(* ---------------- error codes ---------------- *)
Lemma err_infer_range e : In (err_infer e) rfc_app_error_codes.
Proof.
  unfold err_infer, rfc_app_error_codes.
  repeat match goal with |- context [if ?c then _ else _] => destruct c end; cbn; tauto.
Qed.


(* ---------------- statements as used in Props_Conv ---------------- *)
Lemma put_varint_full n : 0 <= n < 2 ^ 62 ->
  exists l, put_varint n = Some l /\ bytes l /\ put_varintlen n = Some (zlen l) /\
    (zlen l = 1 \/ zlen l = 2 \/ zlen l = 4 \/ zlen l = 8) /\
    (forall k, (k = 1 \/ k = 2 \/ k = 4 \/ k = 8) -> n < 2 ^ (8 * k - 2) -> zlen l <= k) /\
    (forall rest, get_varint (l ++ rest) = Some (n, rest)) /\
    (forall rest, bytes rest -> rfc_varint (l ++ rest) = Some (n, rest)).
Proof.
  intros Hn. destruct (put_varint_correct n Hn) as (l & H1 & H2 & H3 & H4 & H5 & H6).
  exists l; repeat (split; [assumption|]). intros. apply rfc_varint_put; auto.
Qed.

Lemma get_varint_read l : bytes l ->
  get_varint l = rfc_varint l /\
  (forall n rest, get_varint l = Some (n, rest) -> 0 <= n < 2 ^ 62).
Proof.
  intros Hl; split; [apply get_varint_rfc; auto|].
  intros n rest H. eapply get_varint_range; eauto.
Qed.

Lemma feed_varint_rfc ps fin :
  ps <> [] -> Forall (fun p => p <> []) ps -> bytes (concat ps) ->
  feed_varint rv_reset ps fin =
  match rfc_varint (concat ps) with
  | Some (n, rest) => Ok (Some (n, rest))
  | None => if fin then Err ERR_INVALID_ARGUMENT else Ok None
  end.
Proof.
  intros Hne Hf Hb. change rv_reset with (rv_after []).
  rewrite feed_varint_spec; auto. cbn [app]. rewrite get_varint_rfc by auto.
  destruct ps; [congruence|].
  destruct (rfc_varint (concat (l :: ps))) as [[n r]|]; reflexivity.
Qed.

Lemma frame_hd_full ty payload : 0 <= ty < 2 ^ 62 -> zlen payload < 2 ^ 62 -> bytes payload ->
  exists h, frame_write_hd ty (zlen payload) = Some h /\ bytes h /\
    frame_write_hd_len ty (zlen payload) = Some (zlen h) /\
    forall rest, bytes rest -> rfc_frame (h ++ payload ++ rest) = Some (ty, payload, rest).
Proof.
  intros Ht Hl Hb. assert (Hl' : wire_int (zlen payload)) by (split; [apply zlen_nonneg|auto]).
  destruct (frame_write_hd_correct ty (zlen payload) Ht Hl') as (h & H1 & H2 & H3 & _).
  exists h; repeat (split; [assumption|]). intros; apply rfc_frame_of; auto.
Qed.

Lemma frame_settings_full iv n total :
  Forall (fun e => 0 <= fst e < 2 ^ 62 /\ 0 <= snd e < 2 ^ 62) iv ->
  frame_write_settings_len iv = Some (n, total) ->
  exists f payload, frame_write_settings n iv = Some f /\ bytes f /\ zlen f = total /\
    zlen payload = n /\ rfc_settings_payload payload iv /\
    forall rest, bytes rest -> rfc_frame (f ++ rest) = Some (4, payload, rest).
Proof.
  intros Hiv Hlen.
  assert (Hn : wire_int n); [|apply frame_settings_correct; auto].
  destruct (settings_payload_correct iv Hiv) as (p & _ & _ & E & _).
  unfold frame_write_settings_len in Hlen. rewrite E in Hlen. cbn [bind] in Hlen.
  destruct (put_varintlen FRAME_SETTINGS); [|discriminate]. cbn [bind] in Hlen.
  destruct (Z.ltb_spec (zlen p) (2^62)) as [Hlt|Hge].
  - destruct (put_varintlen (zlen p)); [|discriminate]. cbn [bind] in Hlen.
    injection Hlen as <- _. split; [apply zlen_nonneg|auto].
  - destruct (put_varint_oversize _ Hge) as [_ E2]. rewrite E2 in Hlen. discriminate.
Qed.

Lemma put_varintlen_total n : 0 <= n < 2 ^ 62 -> exists k, put_varintlen n = Some k /\ 1 <= k <= 8.
Proof.
  intros H. destruct (put_varint_correct n H) as (l & _ & _ & E & D & _). exists (zlen l); split; [auto|lia].
Qed.

Lemma settings_len_total iv :
  Forall (fun e => 0 <= fst e < 2 ^ 62 /\ 0 <= snd e < 2 ^ 62) iv -> 16 * zlen iv < 2 ^ 62 ->
  exists n total, frame_write_settings_len iv = Some (n, total).
Proof.
  intros H Hs.
  assert (exists n, settings_payloadlen iv = Some n /\ 0 <= n <= 16 * zlen iv) as (n & E & Hn).
  { clear Hs. induction H as [|[id v] t [H1 H2] Ht IH]; cbn [settings_payloadlen fst snd] in *.
    - exists 0; rewrite zlen_nil; split; [auto|lia].
    - destruct IH as (n & -> & Hn).
      destruct (put_varintlen_total _ H1) as (k1 & -> & Hk1).
      destruct (put_varintlen_total _ H2) as (k2 & -> & Hk2). cbn [bind].
      eexists; split; [reflexivity|]. rewrite zlen_cons; lia. }
  unfold frame_write_settings_len. rewrite E; cbn [bind].
  destruct (put_varintlen_total n) as (k & -> & _); [lia|].
  cbn. eauto.
Qed.

Lemma err_infer_full e :
  In (err_infer e) rfc_app_error_codes /\ (err_infer e = 0x100 <-> e = 0) /\
  (~ In e documented_errors -> e <> 0 -> err_infer e = 0x101).
Proof.
  split; [apply err_infer_range|].
  split.
  - unfold err_infer.
    repeat match goal with |- context [if ?c then _ else _] => destruct c eqn:? end;
      split; intros; subst; try lia; try discriminate.
  - unfold err_infer, documented_errors, documented_error_map. cbn [map fst In]. intros H H0.
    repeat match goal with |- context [?a =? ?b] => destruct (Z.eqb_spec a b); [exfalso; first [contradiction | apply H; subst e; clear; tauto]|] end.
    reflexivity.
Qed.

Lemma err_infer_map e c : In (e, c) documented_error_map -> err_infer e = c.
Proof.
  unfold documented_error_map; cbn [In]; intros H.
  repeat (destruct H as [H|H]; [injection H as <- <-; reflexivity|]). contradiction.
Qed.
