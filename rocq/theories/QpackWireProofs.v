(* What the QPACK writers produce is what the readers of the decoder accept: one lemma for
   each instruction of the encoder stream and each field line representation. *)
From Verif Require Import Base BaseLemmas Tables ConvProofs QpackIntModel QpackIntSpec QpackIntProofs
  HuffModel HuffSpec HuffProofs QpackTabModel QpackTabSpec QpackTabProofs QpackDynSpec QpackDynProofs
  Chunk QpackDecModel QpackReadProofs QpackDecProofs QpackSecProofs QpackHistModel QpackHistProofs QpackCutProofs QpackEncModel.

(* ---------------- strings ---------------- *)
Definition str_n (s : list Z) : Z := if str_huff s then huff_encode_count s else zlen s.
Definition str_data (s : list Z) : list Z := if str_huff s then huff_encode s else s.

Lemma str_data_len s : bytes s -> zlen (str_data s) = str_n s.
Proof. intros B. unfold str_data, str_n. destruct (str_huff s); auto. apply huff_encode_count_ok; auto. Qed.
Lemma str_data_bytes s : bytes s -> bytes (str_data s).
Proof. intros B. unfold str_data. destruct (str_huff s); auto. apply huff_encode_bits; auto. Qed.
Lemma str_n_range s : bytes s -> 0 <= str_n s <= zlen s.
Proof.
  intros B. split; [rewrite <- str_data_len by auto; apply zlen_nonneg|].
  unfold str_n, str_huff. destruct (Z.ltb_spec (huff_encode_count s) (zlen s)); lia.
Qed.
Lemma put_str_eq fb s N : put_str fb s N =
  q_put_varint (if str_huff s then Z.lor fb (2 ^ N) else fb) (str_n s) N ++ str_data s.
Proof. unfold put_str, str_n, str_data. destruct (str_huff s); reflexivity. Qed.

(* a first byte for a string: flag bits above bit N, H bit clear *)
Definition fb_ok (fb N : Z) : bool :=
  is_byteb fb && (Z.land fb (2 ^ (N + 1) - 1) =? 0) &&
  (Z.lor fb (2 ^ N) =? fb + 2 ^ N) && is_byteb (fb + 2 ^ N).
Lemma fb_ok_spec fb N : 1 <= N <= 7 -> fb_ok fb N = true ->
  is_byte fb /\ is_byte (fb + 2 ^ N) /\ Z.lor fb (2 ^ N) = fb + 2 ^ N /\
  fb / 2 ^ N * 2 ^ N = fb /\ (fb + 2 ^ N) / 2 ^ N * 2 ^ N = fb + 2 ^ N /\ fb mod 2 ^ (N + 1) = 0.
Proof.
  intros HN H. unfold fb_ok in H. apply andb_prop in H as [H H4]. apply andb_prop in H as [H H3].
  apply andb_prop in H as [H1 H2]. apply is_byteb_spec in H1. apply is_byteb_spec in H4.
  apply Z.eqb_eq in H2. apply Z.eqb_eq in H3. rewrite land_mask in H2 by lia.
  assert (P : 0 < 2 ^ N) by (apply pow2_pos; lia).
  assert (E : 2 ^ (N + 1) = 2 * 2 ^ N) by (rewrite Z.pow_add_r by lia; lia).
  assert (M : fb = 2 ^ N * (fb / 2 ^ N)).
  { apply Z_div_exact_full_2; [lia|]. rewrite E in H2. apply Z.mod_divide; [lia|]. apply Z.mod_divide in H2; [|lia].
    destruct H2 as [k ->]. exists (2 * k). lia. }
  split; [auto|split; [auto|split; [auto|split; [lia|split; [|auto]]]]].
  replace (fb + 2 ^ N) with (fb + 1 * 2 ^ N) by lia. rewrite Z.div_add by lia. lia.
Qed.

Lemma land_bit b N : 0 <= N -> (Z.land b (2 ^ N) =? 0) = (b mod 2 ^ (N + 1) <? 2 ^ N).
Proof.
  intros HN. rewrite Z.pow_add_r, Z.pow_1_r by lia.
  assert (P : 0 < 2 ^ N) by (apply pow2_pos; lia).
  rewrite Z.rem_mul_r by lia. pose proof (Z.mod_pos_bound b (2 ^ N) P) as M.
  assert (T : Z.testbit b N = Z.odd (b / 2 ^ N)).
  { rewrite <- Z.shiftr_div_pow2 by lia. rewrite <- Z.bit0_odd, Z.shiftr_spec by lia. f_equal; lia. }
  assert (E : (Z.land b (2 ^ N) =? 0) = negb (Z.testbit b N)).
  { destruct (Z.testbit b N) eqn:Eb; cbn.
    - apply Z.eqb_neq. intros E. assert (F : Z.testbit (Z.land b (2 ^ N)) N = false) by (rewrite E; apply Z.bits_0).
      rewrite Z.land_spec, Eb, Z.pow2_bits_true in F by lia. discriminate.
    - apply Z.eqb_eq. apply Z.bits_inj'. intros k Hk. rewrite Z.land_spec, Z.bits_0.
      destruct (Z.eq_dec k N) as [->|Ne]; [rewrite Eb; reflexivity|].
      rewrite Z.pow2_bits_false by lia. apply andb_false_r. }
  rewrite E, T. pose proof (Zmod_odd (b / 2 ^ N)) as O. destruct (Z.odd (b / 2 ^ N)); rewrite O; cbn [negb]; symmetry.
  - apply Z.ltb_ge. lia.
  - apply Z.ltb_lt. lia.
Qed.

(* the first byte of a written string and the length read from it *)
Lemma put_str_read fb s N rest : 1 <= N <= 7 -> fb_ok fb N = true -> bytes s -> zlen s < 2 ^ 62 -> bytes rest ->
  exists b t, put_str fb s N ++ rest = b :: t /\ bytes (b :: t) /\
    fb <= b < fb + 2 ^ (N + 1) /\
    negb (Z.land b (2 ^ N) =? 0) = str_huff s /\
    exists sh, q_read_varint N 0 0 (b :: t) = Ok (str_n s, sh, str_data s ++ rest, true).
Proof.
  intros HN HF B L Br. destruct (fb_ok_spec fb N HN HF) as (F1 & F2 & F3 & F4 & F5 & F6).
  pose proof (str_n_range s B) as Rn.
  assert (Bf : is_byte (if str_huff s then Z.lor fb (2 ^ N) else fb)) by (destruct (str_huff s); rewrite ?F3; auto).
  assert (Bd : bytes (str_data s ++ rest)) by (apply bytes_app; split; [apply str_data_bytes|]; auto).
  destruct (q_put_varint_first N _ (str_n s) ltac:(lia) Bf ltac:(lia)) as (t & E & Bt & _).
  destruct (q_read_put N _ (str_n s) (str_data s ++ rest) ltac:(lia) Bf ltac:(lia) Bd) as (sh & Q).
  assert (P : 0 < 2 ^ N) by (apply pow2_pos; lia).
  assert (E2 : 2 ^ (N + 1) = 2 * 2 ^ N) by (rewrite Z.pow_add_r by lia; lia).
  rewrite put_str_eq, <- app_assoc. rewrite E in Q, Bt |- *. cbn [app] in *.
  eexists _, _. split; [reflexivity|]. split.
  { apply bytes_cons in Bt as [Bt1 Bt2]. apply bytes_cons. split; auto. apply bytes_app; auto. }
  assert (X : (if str_huff s then Z.lor fb (2 ^ N) else fb) / 2 ^ N * 2 ^ N = fb + (if str_huff s then 2 ^ N else 0)).
  { destruct (str_huff s); rewrite ?F3, ?F4, ?F5; lia. }
  rewrite X in *. split; [destruct (str_huff s); lia|]. split; [|eauto].
  rewrite land_bit by lia. rewrite E2 in *.
  assert (F7 : (fb + (if str_huff s then 2 ^ N else 0) + Z.min (str_n s) (2 ^ N - 1)) mod (2 * 2 ^ N) =
               (if str_huff s then 2 ^ N else 0) + Z.min (str_n s) (2 ^ N - 1)).
  { rewrite <- Z.add_assoc, Z.add_mod, F6, Z.add_0_l, Z.mod_mod by lia. apply Z.mod_small. destruct (str_huff s); lia. }
  rewrite F7. destruct (str_huff s); lia.
Qed.

(* reading the announced string back *)
Lemma read_str_back s fs rest cap : bytes s -> bytes rest ->
  cap = (if str_huff s then str_n s * 2 else str_n s) ->
  (str_huff s = true -> fs = huff_init) ->
  exists fs', read_str (str_huff s) (str_n s) fs [] cap (str_data s ++ rest) = Ok (0, fs', s, rest).
Proof.
  intros B Br Hc Hf. pose proof (str_data_len s B) as L. pose proof (str_n_range s B) as R.
  unfold read_str. destruct (str_huff s) eqn:E.
  - unfold str_n, str_data in *. rewrite E in *. rewrite Hf by auto. unfold read_huffman_string.
    rewrite zlen_app, L. pose proof (zlen_nonneg _ rest).
    rewrite (proj2 (Z.geb_le _ _)) by lia.
    rewrite firstn_app_le, skipn_app_le by lia.
    replace (Z.to_nat (huff_encode_count s)) with (length (huff_encode s)) by (rewrite <- L, zlen_length; reflexivity). rewrite firstn_all, skipn_all. destruct (huff_roundtrip s B) as (f & D & Nf). rewrite D.
    unfold huff_failure. rewrite (proj2 (Z.eqb_neq _ _)) by auto. cbn [app].
    assert (Z2 : zlen s <= cap).
    { rewrite Hc. pose proof (huff_decode_never_aborts (huff_encode s) true ltac:(apply huff_encode_bits; auto)) as Q.
      rewrite D in Q. destruct Q as [[Q _]|Q]; [lia|discriminate]. }
    destruct (Z.gtb_spec (zlen s) cap); [lia|]. exists f. rewrite Z.sub_diag. reflexivity.
  - unfold str_n, str_data in *. rewrite E in *. rewrite (zlen_app _ s rest). pose proof (zlen_nonneg _ rest).
    rewrite Z.min_r by lia. subst cap. rewrite firstn_app_le, skipn_app_le by lia. rewrite zlen_length, firstn_all, skipn_all.
    cbn [app]. destruct (Z.gtb_spec (zlen s) (zlen s)); [lia|]. exists fs. rewrite Z.sub_diag. reflexivity.
Qed.

(* ---------------- encoder stream ---------------- *)
Lemma es_turn d p busy : es_inv d -> bytes p -> (busy = true -> es_ce d) -> (p <> [] \/ busy = true) ->
  run es_step 8 es_rank d p busy = turn es_step d p (run es_step 8 es_rank).
Proof. intros. exact (run_turn es_step 8 es_rank es_inv es_ce es_step_ok d p busy H H0 H1 H2). Qed.

Definition es_add (d : dec) (r : rstate) : outcome ctx :=
  match d_op d with
  | OpInsertIndexed => dec_indexed_add (d_ctx d) r
  | OpInsert => dec_literal_add (d_ctx d) r
  | _ => Abort
  end.
Definition d_done (d : dec) (c : ctx) : dec := d_set (d_set_ctx d c) EsOpcode rs_reset.

Lemma es_inv_go d p d' rest busy ev : es_inv d -> bytes p -> p <> [] ->
  es_step d p = SGo d' rest busy ev -> es_inv d'.
Proof.
  intros I B Hne E. pose proof (es_step_ok d p I B (or_introl Hne)) as K. unfold es_ok, step_ok in K. rewrite E in K. apply K.
Qed.

(* a value string and the insertion that follows *)
Lemma es_value d v rest c : es_inv d -> d_state d = EsCheckValueHuffman -> bytes v -> zlen v <= MAX_VALUELEN -> bytes rest ->
  (forall r, r_value r = v -> r_name r = r_name (d_rs d) -> r_absidx r = r_absidx (d_rs d) ->
     r_dynamic r = r_dynamic (d_rs d) -> es_add d r = Ok c) ->
  es_run d (put_str 0 v 7 ++ rest) = es_run (d_done d c) rest.
Proof.
  intros I St Bv Lv Br Add.
  destruct (put_str_read 0 v 7 rest ltac:(lia) eq_refl Bv ltac:(unfold MAX_VALUELEN in *; lia) Br)
    as (b & t & Ep & Bp & _ & Hb & sh & Q).
  rewrite Ep. unfold es_run. rewrite es_turn; [|exact I|exact Bp|discriminate|left; discriminate].
  unfold turn.
  assert (P7 : r_prefix (d_rs d) = 7) by (destruct I as [_ I]; rewrite St in I; apply I).
  assert (E1 : es_step d (b :: t) =
    SGo (d_set d (if str_huff v then EsReadValueHuffman else EsReadValue)
          (rs_alloc_value (rs_set_int (rs_check_huffman (d_rs d) b) (str_n v) sh))) (str_data v ++ rest) true []).
  { unfold es_step. rewrite St. unfold es_read_valuelen. cbn [rs_check_huffman r_prefix r_left r_shift r_hufenc].
    rewrite P7, Q. pose proof (str_n_range v Bv). destruct (Z.gtb_spec (str_n v) MAX_VALUELEN); [lia|]. rewrite Hb. reflexivity. }
  rewrite E1. pose proof (es_inv_go _ _ _ _ _ _ I Bp ltac:(discriminate) E1) as I2.
  unfold rev_ at 1. rewrite es_turn; [| exact I2 | apply bytes_app; split; [apply str_data_bytes; auto|auto] | | right; reflexivity].
  2:{ intros _. unfold es_ce, d_set. cbn [d_state]. destruct (str_huff v); auto. }
  unfold turn.
  match goal with |- context [es_step ?x (str_data v ++ rest)] => set (d2 := x) end.
  destruct (read_str_back v (r_huff (d_rs d2)) rest (r_vcap (d_rs d2)) Bv Br) as (fs & RS).
  { subst d2. cbn. rewrite P7. change (Z.land b 128) with (Z.land b (2 ^ 7)). rewrite Hb. reflexivity. }
  { intros Hh. subst d2. cbn. rewrite P7. change (Z.land b 128) with (Z.land b (2 ^ 7)). rewrite Hb, Hh. reflexivity. }
  assert (E2 : es_step d2 (str_data v ++ rest) = es_read_value (str_huff v) d2 (str_data v ++ rest)).
  { unfold es_step. subst d2. cbn [d_set d_state]. destruct (str_huff v); reflexivity. }
  rewrite E2. unfold es_read_value.
  change (r_left (d_rs d2)) with (str_n v). change (r_value (d_rs d2)) with (@nil Z). rewrite RS. cbn [Z.eqb negb].
  fold (es_add d2 (rs_set_value (d_rs d2) 0 fs v)).
  assert (A : es_add d2 (rs_set_value (d_rs d2) 0 fs v) = Ok c).
  { change (es_add d2) with (es_add d). apply Add; subst d2; reflexivity. }
  rewrite A. unfold es_done. unfold rev_. change (d_set (d_set_ctx d2 c) EsOpcode rs_reset) with (d_done d c).
  destruct (run _ _ _ _ _ _); reflexivity.
Qed.

Definition d_at (d : dec) (op : es_opcode) (c : ctx) : dec :=
  mk_dec c EsOpcode op rs_reset (d_dbuf d) (d_written d) (d_maxconc d) (d_unint d) (d_seen d).
Lemma es_go d p d' rest : es_inv d -> bytes p -> p <> [] -> es_step d p = SGo d' rest false [] ->
  es_run d p = es_run d' rest.
Proof.
  intros I B Hne E. unfold es_run at 1. rewrite es_turn; [|exact I|exact B|discriminate|left; exact Hne].
  unfold turn. rewrite E. unfold es_run. destruct (run _ _ _ _ _ _); reflexivity.
Qed.

(* the bits of the first byte that select the instruction *)
Lemma es_bits b : is_byte b ->
  (128 <=? Z.land b 224) = (128 <=? b) /\
  ((Z.land b 224 =? 64) || (Z.land b 224 =? 96)) = (64 <=? b) && (b <? 128) /\
  (Z.land b 224 =? 32) = (32 <=? b) && (b <? 64) /\
  (Z.land b 64 =? 0) = ((b <? 64) || (128 <=? b) && (b <? 192)).
Proof.
  intros H.
  pose proof (byte_sweep (fun b =>
    Bool.eqb (128 <=? Z.land b 224) (128 <=? b) &&
    Bool.eqb ((Z.land b 224 =? 64) || (Z.land b 224 =? 96)) ((64 <=? b) && (b <? 128)) &&
    Bool.eqb (Z.land b 224 =? 32) ((32 <=? b) && (b <? 64)) &&
    Bool.eqb (Z.land b 64 =? 0) ((b <? 64) || (128 <=? b) && (b <? 192))) ltac:(vm_compute; reflexivity) b H) as S.
  cbv beta in S. repeat (apply andb_prop in S as [S ?]).
  repeat match goal with H : Bool.eqb _ _ = true |- _ => apply Bool.eqb_prop in H end. auto.
Qed.
Lemma put_int_read fb n N rest : 1 <= N <= 8 -> is_byte fb -> fb / 2 ^ N * 2 ^ N = fb -> 0 <= n < 2 ^ 62 -> bytes rest ->
  exists b t, q_put_varint fb n N ++ rest = b :: t /\ bytes (b :: t) /\ fb <= b < fb + 2 ^ N /\
    exists sh, q_read_varint N 0 0 (b :: t) = Ok (n, sh, rest, true).
Proof.
  intros HN Bf HF Hn Br.
  destruct (q_put_varint_first N fb n HN Bf Hn) as (t & E & Bt & _).
  destruct (q_read_put N fb n rest HN Bf Hn Br) as (sh & Q).
  assert (P : 0 < 2 ^ N) by (apply pow2_pos; lia).
  rewrite E in Q, Bt |- *. cbn [app] in *. eexists _, _. split; [reflexivity|].
  apply bytes_cons in Bt as [Bt1 Bt2]. split; [apply bytes_cons; split; auto; apply bytes_app; auto|].
  split; [rewrite HF; lia|eauto].
Qed.

Definition int_of (r : rstate) (p : Z) (nev dyn : bool) (n sh : Z) : rstate := rs_set_int (rs_set_op r p nev dyn) n sh.
(* an instruction that starts with an index *)
Lemma es_index d fb n rest op (dyn : bool) N : es_inv d -> d_state d = EsOpcode -> 0 <= n < 2 ^ 62 -> bytes rest ->
  (fb = 192 /\ op = OpInsertIndexed /\ dyn = false /\ N = 6 \/ fb = 128 /\ op = OpInsertIndexed /\ dyn = true /\ N = 6 \/
   fb = 32 /\ op = OpSetCap /\ dyn = false /\ N = 5 \/ fb = 0 /\ op = OpDuplicate /\ dyn = true /\ N = 5) ->
  exists p sh, q_read_varint N 0 0 p = Ok (n, sh, rest, true) /\ bytes p /\ p <> [] /\
    es_inv (d_set_op d EsReadIndex op (rs_set_op rs_reset N false dyn)) /\
    es_run d (q_put_varint fb n N ++ rest) = es_run (d_set_op d EsReadIndex op (rs_set_op rs_reset N false dyn)) p.
Proof.
  intros I St Hn Br Hc.
  assert (HN : N = 5 \/ N = 6) by intuition lia.
  destruct (put_int_read fb n N rest) as (b & t & Ep & Bp & Rb & sh & Q); auto;
    [lia|unfold is_byte; intuition lia|clear HN; destruct Hc as [Hc|[Hc|[Hc|Hc]]]; destruct Hc as (-> & _ & _ & ->); reflexivity|].
  assert (Rs : d_rs d = rs_reset) by (destruct I as [_ I]; rewrite St in I; exact I).
  exists (b :: t), sh. split; [exact Q|]. split; [exact Bp|]. split; [discriminate|].
  assert (E : es_step d (b :: t) = SGo (d_set_op d EsReadIndex op (rs_set_op rs_reset N false dyn)) (b :: t) false []).
  { unfold es_step. rewrite St, Rs. apply bytes_cons in Bp as [Bb _]. destruct (es_bits b Bb) as (B1 & B2 & B3 & B4).
    rewrite B1, B2, B3, B4. clear B1 B2 B3 B4.
    destruct Hc as [Hc|[Hc|[Hc|Hc]]]; destruct Hc as (-> & -> & -> & ->); cbn in Rb.
    - rewrite (proj2 (Z.leb_le 128 b)), (proj2 (Z.ltb_ge b 64)), (proj2 (Z.ltb_ge b 192)) by lia. reflexivity.
    - rewrite (proj2 (Z.leb_le 128 b)), (proj2 (Z.ltb_ge b 64)), (proj2 (Z.ltb_lt b 192)) by lia. reflexivity.
    - rewrite (proj2 (Z.leb_gt 128 b)), (proj2 (Z.leb_gt 64 b)), (proj2 (Z.leb_le 32 b)), (proj2 (Z.ltb_lt b 64)) by lia. reflexivity.
    - rewrite (proj2 (Z.leb_gt 128 b)), (proj2 (Z.leb_gt 64 b)), (proj2 (Z.leb_gt 32 b)) by lia. reflexivity. }
  split; [exact (es_inv_go _ _ _ _ _ _ I Bp ltac:(discriminate) E)|].
  rewrite Ep. apply es_go; auto. discriminate.
Qed.

Lemma es_setcap d n rest c : es_inv d -> d_state d = EsOpcode -> 0 <= n < 2 ^ 62 -> bytes rest ->
  dec_set_cap (d_ctx d) n = Ok c ->
  es_run d (q_put_varint 32 n 5 ++ rest) = es_run (d_at d OpSetCap c) rest.
Proof.
  intros I St Hn Br A.
  destruct (es_index d 32 n rest OpSetCap false 5 I St Hn Br ltac:(auto 12)) as (p & sh & Q & Bp & Hp & I2 & ->).
  apply es_go; auto. unfold es_step. cbn [d_set_op d_state]. unfold es_read_index.
  cbn [d_set_op d_rs r_prefix r_left r_shift rs_set_op rs_reset d_op d_ctx]. rewrite Q, A. reflexivity.
Qed.
Lemma rel2abs_dyn c r n : r_dynamic r = true -> r_left r = n -> 0 <= n ->
  n < next_absidx c -> n < zlen (dtable c) ->
  rel2abs c r = Ok (rs_set_absidx r (next_absidx c - n - 1)).
Proof.
  intros D L H0 H1 H2. unfold rel2abs. rewrite D, L. cbn [andb].
  destruct (Z.ltb_spec (next_absidx c) (n + 1)); [lia|]. unfold validate_index. cbn [rs_set_absidx r_dynamic r_absidx].
  rewrite D. rewrite (proj2 (Z.ltb_lt (next_absidx c - n - 1) (next_absidx c))) by lia.
  rewrite (proj2 (Z.ltb_lt (next_absidx c - (next_absidx c - n - 1) - 1) _)) by lia. reflexivity.
Qed.
Lemma es_dup d i rest e c : es_inv d -> d_state d = EsOpcode -> bytes rest -> next_absidx (d_ctx d) <= 2 ^ 62 ->
  dtable_get (d_ctx d) i = Some e -> dec_add (d_ctx d) (e_name e) (e_value e) (e_token e) = Ok c ->
  es_run d (q_put_varint 0 (next_absidx (d_ctx d) - i - 1) 5 ++ rest) = es_run (d_at d OpDuplicate c) rest.
Proof.
  intros I St Br Hx G A. destruct (dtable_get_inv _ _ _ (proj1 (proj1 I)) G) as (R & _).
  pose proof (tab_at_len _ _ _ (wf_tab _ (proj1 (proj1 I)))) as TL.
  destruct (es_index d 0 (next_absidx (d_ctx d) - i - 1) rest OpDuplicate true 5 I St ltac:(lia) Br ltac:(auto 12)) as (p & sh & Q & Bp & Hp & I2 & ->).
  apply es_go; auto. unfold es_step. cbn [d_set_op d_state]. unfold es_read_index.
  cbn [d_set_op d_rs r_prefix r_left r_shift rs_set_op rs_reset d_op d_ctx]. rewrite Q.
  rewrite (rel2abs_dyn _ _ (next_absidx (d_ctx d) - i - 1)) by (reflexivity || lia).
  unfold dec_duplicate_add. cbn [rs_set_absidx r_absidx].
  replace (next_absidx (d_ctx d) - (next_absidx (d_ctx d) - i - 1) - 1) with i by lia.
  rewrite G, A. reflexivity.
Qed.
Lemma es_insert_dyn d i v rest e c : es_inv d -> d_state d = EsOpcode -> bytes rest -> next_absidx (d_ctx d) <= 2 ^ 62 ->
  bytes v -> zlen v <= MAX_VALUELEN ->
  dtable_get (d_ctx d) i = Some e -> dec_add (d_ctx d) (e_name e) v (e_token e) = Ok c ->
  es_run d (q_put_varint 128 (next_absidx (d_ctx d) - i - 1) 6 ++ put_str 0 v 7 ++ rest) = es_run (d_at d OpInsertIndexed c) rest.
Proof.
  intros I St Br Hx Bv Lv G A. destruct (dtable_get_inv _ _ _ (proj1 (proj1 I)) G) as (R & _).
  pose proof (tab_at_len _ _ _ (wf_tab _ (proj1 (proj1 I)))) as TL.
  assert (Bs : bytes (put_str 0 v 7 ++ rest)).
  { destruct (put_str_read 0 v 7 rest ltac:(lia) eq_refl Bv ltac:(unfold MAX_VALUELEN in *; lia) Br) as (b & t & -> & B & _). exact B. }
  destruct (es_index d 128 (next_absidx (d_ctx d) - i - 1) (put_str 0 v 7 ++ rest) OpInsertIndexed true 6 I St ltac:(lia) Bs ltac:(auto 12)) as (p & sh & Q & Bp & Hp & I2 & ->).
  assert (E : es_step (d_set_op d EsReadIndex OpInsertIndexed (rs_set_op rs_reset 6 false true)) p =
    SGo (d_set_op d EsCheckValueHuffman OpInsertIndexed
          (rs_set_prefix (rs_set_absidx (rs_set_int (rs_set_op rs_reset 6 false true) (next_absidx (d_ctx d) - i - 1) sh) i) 7)) (put_str 0 v 7 ++ rest) false []).
  { unfold es_step. cbn [d_set_op d_state]. unfold es_read_index.
    cbn [d_set_op d_rs r_prefix r_left r_shift rs_set_op rs_reset d_op d_ctx]. rewrite Q.
    rewrite (rel2abs_dyn _ _ (next_absidx (d_ctx d) - i - 1)) by (reflexivity || lia).
    replace (next_absidx (d_ctx d) - (next_absidx (d_ctx d) - i - 1) - 1) with i by lia. reflexivity. }
  rewrite (es_go _ _ _ _ I2 Bp Hp E). pose proof (es_inv_go _ _ _ _ _ _ I2 Bp Hp E) as I3.
  rewrite (es_value _ v rest c I3 eq_refl Bv Lv Br); [reflexivity|].
  intros r Hv _ Ha Hd. unfold es_add. cbn [d_set_op d_op d_ctx]. unfold dec_indexed_add. rewrite Hd, Ha, Hv. cbn [rs_set_prefix r_dynamic r_absidx d_rs d_set_op rs_set_absidx rs_set_int rs_set_op].
  rewrite G. exact A.
Qed.
Lemma es_insert_sta d i v rest n v0 t c : es_inv d -> d_state d = EsOpcode -> bytes rest ->
  bytes v -> zlen v <= MAX_VALUELEN ->
  stable_get i = Some (n, v0, t) -> dec_add (d_ctx d) n v t = Ok c ->
  es_run d (q_put_varint 192 i 6 ++ put_str 0 v 7 ++ rest) = es_run (d_at d OpInsertIndexed c) rest.
Proof.
  intros I St Br Bv Lv G A. pose proof (stable_get_range _ _ G) as R.
  assert (Bs : bytes (put_str 0 v 7 ++ rest)).
  { destruct (put_str_read 0 v 7 rest ltac:(lia) eq_refl Bv ltac:(unfold MAX_VALUELEN in *; lia) Br) as (b & t' & -> & B & _). exact B. }
  destruct (es_index d 192 i (put_str 0 v 7 ++ rest) OpInsertIndexed false 6 I St ltac:(lia) Bs ltac:(auto 12)) as (p & sh & Q & Bp & Hp & I2 & ->).
  assert (E : es_step (d_set_op d EsReadIndex OpInsertIndexed (rs_set_op rs_reset 6 false false)) p =
    SGo (d_set_op d EsCheckValueHuffman OpInsertIndexed
          (rs_set_prefix (rs_set_absidx (rs_set_int (rs_set_op rs_reset 6 false false) i sh) i) 7)) (put_str 0 v 7 ++ rest) false []).
  { unfold es_step. cbn [d_set_op d_state]. unfold es_read_index.
    cbn [d_set_op d_rs r_prefix r_left r_shift rs_set_op rs_reset d_op d_ctx]. rewrite Q.
    unfold rel2abs. cbn [rs_set_int r_dynamic rs_set_op andb rs_set_absidx r_left validate_index r_absidx]. rewrite stable_len_99, (proj2 (Z.ltb_lt i 99)) by lia. reflexivity. }
  rewrite (es_go _ _ _ _ I2 Bp Hp E). pose proof (es_inv_go _ _ _ _ _ _ I2 Bp Hp E) as I3.
  rewrite (es_value _ v rest c I3 eq_refl Bv Lv Br); [reflexivity|].
  intros r Hv _ Ha Hd. unfold es_add. cbn [d_set_op d_op d_ctx]. unfold dec_indexed_add. rewrite Hd, Ha, Hv. cbn [rs_set_prefix r_dynamic r_absidx d_rs d_set_op rs_set_absidx rs_set_int rs_set_op].
  rewrite G. exact A.
Qed.
Lemma es_insert_lit d n v rest c : es_inv d -> d_state d = EsOpcode -> bytes rest ->
  bytes n -> zlen n <= MAX_NAMELEN -> bytes v -> zlen v <= MAX_VALUELEN ->
  dec_add (d_ctx d) n v (lookup_token n) = Ok c ->
  es_run d (put_str 64 n 5 ++ put_str 0 v 7 ++ rest) = es_run (d_at d OpInsert c) rest.
Proof.
  intros I St Br Bn Ln Bv Lv A.
  assert (Bs : bytes (put_str 0 v 7 ++ rest)).
  { destruct (put_str_read 0 v 7 rest ltac:(lia) eq_refl Bv ltac:(unfold MAX_VALUELEN in *; lia) Br) as (b & t' & -> & B & _). exact B. }
  destruct (put_str_read 64 n 5 (put_str 0 v 7 ++ rest) ltac:(lia) eq_refl Bn ltac:(unfold MAX_NAMELEN in *; lia) Bs)
    as (b & t & Ep & Bp & Rb & Hb & sh & Q).
  assert (Rs : d_rs d = rs_reset) by (destruct I as [_ I']; rewrite St in I'; exact I').
  set (r1 := rs_set_op rs_reset 5 false false).
  assert (E1 : es_step d (b :: t) = SGo (d_set_op d EsCheckNameHuffman OpInsert r1) (b :: t) false []).
  { unfold es_step. rewrite St, Rs. apply bytes_cons in Bp as [Bb _]. destruct (es_bits b Bb) as (B1 & B2 & B3 & B4).
    rewrite B1, B2. change (64 + 2 ^ (5 + 1)) with 128 in Rb.
    rewrite (proj2 (Z.leb_gt 128 b)), (proj2 (Z.leb_le 64 b)), (proj2 (Z.ltb_lt b 128)) by lia. reflexivity. }
  rewrite Ep, (es_go _ _ _ _ I Bp ltac:(discriminate) E1). pose proof (es_inv_go _ _ _ _ _ _ I Bp ltac:(discriminate) E1) as I2.
  set (r2 := rs_alloc_name (rs_set_int (rs_check_huffman r1 b) (str_n n) sh)).
  assert (E2 : es_step (d_set_op d EsCheckNameHuffman OpInsert r1) (b :: t) =
    SGo (d_set_op d (if str_huff n then EsReadNameHuffman else EsReadName) OpInsert r2) (str_data n ++ put_str 0 v 7 ++ rest) false []).
  { unfold es_step. cbn [d_set_op d_state d_rs]. unfold es_read_namelen. cbn [rs_check_huffman r_prefix r_left r_shift r_hufenc r1 rs_set_op].
    rewrite Q. pose proof (str_n_range n Bn). destruct (Z.gtb_spec (str_n n) MAX_NAMELEN); [lia|]. rewrite Hb. reflexivity. }
  rewrite (es_go _ _ _ _ I2 Bp ltac:(discriminate) E2). pose proof (es_inv_go _ _ _ _ _ _ I2 Bp ltac:(discriminate) E2) as I3.
  assert (Bd : bytes (str_data n ++ put_str 0 v 7 ++ rest)) by (apply bytes_app; split; [apply str_data_bytes; auto|auto]).
  assert (Nd : str_data n ++ put_str 0 v 7 ++ rest <> []).
  { destruct (put_str_read 0 v 7 rest ltac:(lia) eq_refl Bv ltac:(unfold MAX_VALUELEN in *; lia) Br) as (b' & t' & -> & _).
    intros X. apply app_eq_nil in X as [_ X]. discriminate. }
  destruct (read_str_back n (r_huff r2) (put_str 0 v 7 ++ rest) (r_ncap r2) Bn Bs) as (fs & RS).
  { subst r2. cbn. change (Z.land b 32) with (Z.land b (2 ^ 5)). rewrite Hb. reflexivity. }
  { intros Hh. subst r2. cbn. change (Z.land b 32) with (Z.land b (2 ^ 5)). rewrite Hb, Hh. reflexivity. }
  assert (E3 : es_step (d_set_op d (if str_huff n then EsReadNameHuffman else EsReadName) OpInsert r2) (str_data n ++ put_str 0 v 7 ++ rest) =
    SGo (d_set_op d EsCheckValueHuffman OpInsert (rs_set_prefix (rs_set_name r2 0 fs n) 7)) (put_str 0 v 7 ++ rest) false []).
  { transitivity (es_read_name (str_huff n) (d_set_op d (if str_huff n then EsReadNameHuffman else EsReadName) OpInsert r2) (str_data n ++ put_str 0 v 7 ++ rest)).
    { unfold es_step. cbn [d_set_op d_state]. destruct (str_huff n); reflexivity. }
    unfold es_read_name. cbn [d_set_op d_rs]. change (r_left r2) with (str_n n). change (r_name r2) with (@nil Z). rewrite RS. reflexivity. }
  rewrite (es_go _ _ _ _ I3 Bd Nd E3). pose proof (es_inv_go _ _ _ _ _ _ I3 Bd Nd E3) as I4.
  rewrite (es_value _ v rest c I4 eq_refl Bv Lv Br); [reflexivity|].
  intros r Hv Hn _ _. unfold es_add. cbn [d_set_op d_op d_ctx]. unfold dec_literal_add. rewrite Hn, Hv. exact A.
Qed.

(* ---------------- field sections ---------------- *)
Lemma rev_nil_ A B (r : @rres A B) : rev_ [] r = r. Proof. destruct r; reflexivity. Qed.
Section Rep.
Variable c : ctx.
Hypothesis Wc : ctx_ok c.
Lemma rs_turn s p busy : rs_inv s -> bytes p -> (busy = true -> rs_ce s) -> (p <> [] \/ busy = true) ->
  run (rs_step c) 8 rs_rank s p busy = turn (rs_step c) s p (run (rs_step c) 8 rs_rank).
Proof. intros. exact (run_turn (rs_step c) 8 rs_rank rs_inv rs_ce (rs_step_sok c Wc) s p busy H H0 H1 H2). Qed.
Lemma rs_inv_go s p s' rest busy ev : rs_inv s -> bytes p -> p <> [] ->
  rs_step c s p = SGo s' rest busy ev -> rs_inv s'.
Proof.
  intros I B Hne E. pose proof (rs_step_sok c Wc s p I B (or_introl Hne)) as K. unfold rs_sok, step_ok in K. rewrite E in K. apply K.
Qed.
Lemma rs_go s p s' rest ev : rs_inv s -> bytes p -> p <> [] -> rs_step c s p = SGo s' rest false ev ->
  rs_run c s p = rev_ ev (rs_run c s' rest).
Proof.
  intros I B Hne E. unfold rs_run at 1. rewrite rs_turn; [|exact I|exact B|discriminate|left; exact Hne].
  unfold turn. rewrite E. reflexivity.
Qed.
Lemma rs_value s v rest q : rs_inv s -> s_state s = RsCheckValueHuffman -> bytes v -> zlen v <= MAX_VALUELEN -> bytes rest ->
  (forall r, r_value r = v -> r_name r = r_name (s_rs s) -> r_absidx r = r_absidx (s_rs s) ->
     r_dynamic r = r_dynamic (s_rs s) -> r_never r = r_never (s_rs s) -> rs_out c s r = Ok q) ->
  rs_run c s (put_str 0 v 7 ++ rest) = rev_ [q] (rs_run c (s_set s RsOpcode rs_reset) rest).
Proof.
  intros I St Bv Lv Br Add.
  destruct (put_str_read 0 v 7 rest ltac:(lia) eq_refl Bv ltac:(unfold MAX_VALUELEN in *; lia) Br)
    as (b & t & Ep & Bp & _ & Hb & sh & Q).
  rewrite Ep. unfold rs_run. rewrite rs_turn; [|exact I|exact Bp|discriminate|left; discriminate].
  unfold turn.
  assert (P7 : r_prefix (s_rs s) = 7) by (destruct I as (_ & _ & I); rewrite St in I; apply I).
  assert (E1 : rs_step c s (b :: t) =
    SGo (s_set s (if str_huff v then RsReadValueHuffman else RsReadValue)
          (rs_alloc_value (rs_set_int (rs_check_huffman (s_rs s) b) (str_n v) sh))) (str_data v ++ rest) true []).
  { unfold rs_step. rewrite St. unfold rs_read_valuelen. cbn [rs_check_huffman r_prefix r_left r_shift r_hufenc].
    rewrite P7, Q. pose proof (str_n_range v Bv). destruct (Z.gtb_spec (str_n v) MAX_VALUELEN); [lia|]. rewrite Hb. reflexivity. }
  rewrite E1. pose proof (rs_inv_go _ _ _ _ _ _ I Bp ltac:(discriminate) E1) as I2.
  rewrite rev_nil_. rewrite rs_turn; [| exact I2 | apply bytes_app; split; [apply str_data_bytes; auto|auto] | | right; reflexivity].
  2:{ intros _. unfold rs_ce, s_set. cbn [s_state]. destruct (str_huff v); auto. }
  unfold turn.
  match goal with |- context [rs_step c ?x (str_data v ++ rest)] => set (s2 := x) end.
  destruct (read_str_back v (r_huff (s_rs s2)) rest (r_vcap (s_rs s2)) Bv Br) as (fs & RS).
  { subst s2. cbn. rewrite P7. change (Z.land b 128) with (Z.land b (2 ^ 7)). rewrite Hb. reflexivity. }
  { intros Hh. subst s2. cbn. rewrite P7. change (Z.land b 128) with (Z.land b (2 ^ 7)). rewrite Hb, Hh. reflexivity. }
  assert (E2 : rs_step c s2 (str_data v ++ rest) = rs_read_value c (str_huff v) s2 (str_data v ++ rest)).
  { unfold rs_step. subst s2. cbn [s_set s_state]. destruct (str_huff v); reflexivity. }
  rewrite E2. unfold rs_read_value.
  change (r_left (s_rs s2)) with (str_n v). change (r_value (s_rs s2)) with (@nil Z). rewrite RS. cbn [Z.eqb negb].
  fold (rs_out c s2 (rs_set_value (s_rs s2) 0 fs v)).
  assert (A : rs_out c s2 (rs_set_value (s_rs s2) 0 fs v) = Ok q).
  { change (rs_out c s2) with (rs_out c s). apply Add; subst s2; reflexivity. }
  rewrite A. reflexivity.
Qed.

Lemma rs_bits b : is_byte b ->
  (128 <=? Z.land b 240) = (128 <=? b) /\
  (64 <=? Z.land b 240) = (64 <=? b) /\
  ((Z.land b 240 =? 32) || (Z.land b 240 =? 48)) = (32 <=? b) && (b <? 64) /\
  (Z.land b 240 =? 16) = (16 <=? b) && (b <? 32).
Proof.
  intros H.
  pose proof (byte_sweep (fun b =>
    Bool.eqb (128 <=? Z.land b 240) (128 <=? b) &&
    Bool.eqb (64 <=? Z.land b 240) (64 <=? b) &&
    Bool.eqb ((Z.land b 240 =? 32) || (Z.land b 240 =? 48)) ((32 <=? b) && (b <? 64)) &&
    Bool.eqb (Z.land b 240 =? 16) ((16 <=? b) && (b <? 32))) ltac:(vm_compute; reflexivity) b H) as S.
  cbv beta in S. repeat (apply andb_prop in S as [S ?]).
  repeat match goal with H : Bool.eqb _ _ = true |- _ => apply Bool.eqb_prop in H end. auto.
Qed.
(* flag bits, by the range of the first byte *)
Lemma rs_bits2 b : is_byte b ->
  (128 <= b < 192 -> (Z.land b 64 =? 0) = true) /\ (192 <= b -> (Z.land b 64 =? 0) = false) /\
  (64 <= b < 80 -> Z.land b 32 =? 0 = true /\ Z.land b 16 =? 0 = true) /\
  (80 <= b < 96 -> Z.land b 32 =? 0 = true /\ Z.land b 16 =? 0 = false) /\
  (96 <= b < 112 -> Z.land b 32 =? 0 = false /\ Z.land b 16 =? 0 = true) /\
  (112 <= b < 128 -> Z.land b 32 =? 0 = false /\ Z.land b 16 =? 0 = false) /\
  (32 <= b < 48 -> Z.land b 16 =? 0 = true) /\ (48 <= b < 64 -> Z.land b 16 =? 0 = false) /\
  (b < 8 -> Z.land b 8 =? 0 = true) /\ (8 <= b < 16 -> Z.land b 8 =? 0 = false).
Proof.
  intros H.
  pose proof (byte_sweep (fun b =>
    let imp (a x : bool) := negb a || x in
    imp ((128 <=? b) && (b <? 192)) (Z.land b 64 =? 0) && imp (192 <=? b) (negb (Z.land b 64 =? 0)) &&
    imp ((64 <=? b) && (b <? 80)) ((Z.land b 32 =? 0) && (Z.land b 16 =? 0)) &&
    imp ((80 <=? b) && (b <? 96)) ((Z.land b 32 =? 0) && negb (Z.land b 16 =? 0)) &&
    imp ((96 <=? b) && (b <? 112)) (negb (Z.land b 32 =? 0) && (Z.land b 16 =? 0)) &&
    imp ((112 <=? b) && (b <? 128)) (negb (Z.land b 32 =? 0) && negb (Z.land b 16 =? 0)) &&
    imp ((32 <=? b) && (b <? 48)) (Z.land b 16 =? 0) && imp ((48 <=? b) && (b <? 64)) (negb (Z.land b 16 =? 0)) &&
    imp (b <? 8) (Z.land b 8 =? 0) && imp ((8 <=? b) && (b <? 16)) (negb (Z.land b 8 =? 0))) ltac:(vm_compute; reflexivity) b H) as S.
  cbv beta zeta in S.
  destruct (Z.land b 64 =? 0), (Z.land b 32 =? 0), (Z.land b 16 =? 0), (Z.land b 8 =? 0);
    repeat split; intros; try reflexivity; exfalso; lia.
Qed.

(* the table a representation needs, and how the opcode byte selects it *)
Definition rop (fb N : Z) (op : rs_opcode) (nev dyn : bool) : Prop :=
  fb = 128 /\ N = 6 /\ op = RoIndexed /\ nev = false /\ dyn = true \/
  fb = 192 /\ N = 6 /\ op = RoIndexed /\ nev = false /\ dyn = false \/
  fb = 16 /\ N = 4 /\ op = RoIndexedPb /\ nev = false /\ dyn = true \/
  fb = 64 /\ N = 4 /\ op = RoIndexedName /\ nev = false /\ dyn = true \/
  fb = 96 /\ N = 4 /\ op = RoIndexedName /\ nev = true /\ dyn = true \/
  fb = 80 /\ N = 4 /\ op = RoIndexedName /\ nev = false /\ dyn = false \/
  fb = 112 /\ N = 4 /\ op = RoIndexedName /\ nev = true /\ dyn = false \/
  fb = 0 /\ N = 3 /\ op = RoIndexedNamePb /\ nev = false /\ dyn = true \/
  fb = 8 /\ N = 3 /\ op = RoIndexedNamePb /\ nev = true /\ dyn = true.
Definition s_start (s : sctx) : Prop := rs_inv s /\ s_state s = RsOpcode /\ r_never (s_rs s) = false.
Lemma s_start_next s op r : s_start s -> s_start (s_set (s_set_op s RsOpcode op r) RsOpcode rs_reset).
Proof.
  intros ((I1 & I2 & _) & _). split; [|split; reflexivity]. split; [exact I1|]. split; [exact I2|]. split; reflexivity.
Qed.
Lemma rs_index s fb n N op nev dyn rest : s_start s -> 0 <= n < 2 ^ 62 -> bytes rest -> rop fb N op nev dyn ->
  exists p sh r, q_read_varint N 0 0 p = Ok (n, sh, rest, true) /\ bytes p /\ p <> [] /\
    rs_inv (s_set_op s RsReadIndex op r) /\ r = rs_set_op (s_rs s) N nev dyn /\
    r_left r = 0 /\ r_shift r = 0 /\
    rs_run c s (q_put_varint fb n N ++ rest) = rs_run c (s_set_op s RsReadIndex op r) p.
Proof.
  intros (I & St & Nv) Hn Br Hc.
  destruct (put_int_read fb n N rest) as (b & t & Ep & Bp & Rb & sh & Q); auto.
  { unfold rop in Hc. lia. } { unfold rop, is_byte in *. lia. }
  { unfold rop in Hc. repeat (destruct Hc as [Hc|Hc]; [destruct Hc as (-> & -> & _); reflexivity|]). destruct Hc as (-> & -> & _); reflexivity. }
  assert (L0 : r_left (s_rs s) = 0 /\ r_shift (s_rs s) = 0) by (destruct I as (_ & _ & I); rewrite St in I; exact I).
  destruct L0 as [L0 S0].
  exists (b :: t), sh, (rs_set_op (s_rs s) N nev dyn). split; [exact Q|]. split; [exact Bp|]. split; [discriminate|].
  assert (E : rs_step c s (b :: t) = SGo (s_set_op s RsReadIndex op (rs_set_op (s_rs s) N nev dyn)) (b :: t) false []).
  { unfold rs_step. rewrite St. unfold rs_opcode_step. rewrite L0, S0. cbn [Z.eqb negb orb].
    apply bytes_cons in Bp as [Bb _]. destruct (rs_bits b Bb) as (B1 & B2 & B3 & B4).
    destruct (rs_bits2 b Bb) as (C1 & C2 & C3 & C4 & C5 & C6 & C7 & C8 & C9 & C10).
    rewrite B1, B2, B3, B4. clear B1 B2 B3 B4. rewrite Nv.
    unfold rop in Hc.
    destruct Hc as [Hc|[Hc|[Hc|[Hc|[Hc|[Hc|[Hc|[Hc|Hc]]]]]]]]; destruct Hc as (-> & -> & -> & -> & ->);
      [change (2 ^ 6) with 64 in Rb | change (2 ^ 6) with 64 in Rb |
       change (2 ^ 4) with 16 in Rb | change (2 ^ 4) with 16 in Rb | change (2 ^ 4) with 16 in Rb |
       change (2 ^ 4) with 16 in Rb | change (2 ^ 4) with 16 in Rb |
       change (2 ^ 3) with 8 in Rb | change (2 ^ 3) with 8 in Rb].
    - rewrite (proj2 (Z.leb_le 128 b)) by lia. rewrite C1 by lia. reflexivity.
    - rewrite (proj2 (Z.leb_le 128 b)) by lia. rewrite C2 by lia. reflexivity.
    - rewrite (proj2 (Z.leb_gt 128 b)), (proj2 (Z.leb_gt 64 b)), (proj2 (Z.leb_gt 32 b)), (proj2 (Z.leb_le 16 b)), (proj2 (Z.ltb_lt b 32)) by lia. reflexivity.
    - rewrite (proj2 (Z.leb_gt 128 b)), (proj2 (Z.leb_le 64 b)) by lia. rewrite (proj1 (C3 ltac:(lia))), (proj2 (C3 ltac:(lia))). reflexivity.
    - rewrite (proj2 (Z.leb_gt 128 b)), (proj2 (Z.leb_le 64 b)) by lia. rewrite (proj1 (C5 ltac:(lia))), (proj2 (C5 ltac:(lia))). reflexivity.
    - rewrite (proj2 (Z.leb_gt 128 b)), (proj2 (Z.leb_le 64 b)) by lia. rewrite (proj1 (C4 ltac:(lia))), (proj2 (C4 ltac:(lia))). reflexivity.
    - rewrite (proj2 (Z.leb_gt 128 b)), (proj2 (Z.leb_le 64 b)) by lia. rewrite (proj1 (C6 ltac:(lia))), (proj2 (C6 ltac:(lia))). reflexivity.
    - rewrite (proj2 (Z.leb_gt 128 b)), (proj2 (Z.leb_gt 64 b)), (proj2 (Z.leb_gt 32 b)), (proj2 (Z.leb_gt 16 b)) by lia. rewrite C9 by lia. reflexivity.
    - rewrite (proj2 (Z.leb_gt 128 b)), (proj2 (Z.leb_gt 64 b)), (proj2 (Z.leb_gt 32 b)), (proj2 (Z.leb_gt 16 b)) by lia. rewrite C10 by lia. reflexivity. }
  split; [exact (rs_inv_go _ _ _ _ _ _ I Bp ltac:(discriminate) E)|]. split; [reflexivity|]. split; [exact L0|]. split; [exact S0|].
  rewrite Ep. rewrite (rs_go _ _ _ _ _ I Bp ltac:(discriminate) E). apply rev_nil_.
Qed.
Definition s_next (s : sctx) (op : rs_opcode) : sctx := mk_sctx RsOpcode op rs_reset (s_id s) (s_ricnt s) (s_sign s) (s_base s).
(* how a relative index of a section is resolved *)
Definition sec_rel (s : sctx) (op : rs_opcode) (dyn : bool) (n i : Z) : Prop :=
  match op with
  | RoIndexed | RoIndexedName => if dyn then s_base s - n - 1 = i /\ n < s_base s else n = i
  | _ => dyn = true /\ n + s_base s = i
  end.
Definition sec_has (s : sctx) (dyn : bool) (i : Z) : Prop :=
  if dyn then 0 <= i < s_ricnt s /\ next_absidx c - zlen (dtable c) <= i < next_absidx c else 0 <= i < 99.
Lemma sec_has_valid s dyn i r : sec_has s dyn i -> r_dynamic r = dyn -> r_absidx r = i -> validate_index c r = true.
Proof.
  intros H D A. unfold validate_index. rewrite D, A. unfold sec_has in H. destruct dyn.
  - destruct (Z.ltb_spec i (next_absidx c)); [|lia]. destruct (Z.ltb_spec (next_absidx c - i - 1) (zlen (dtable c))); [reflexivity|lia].
  - rewrite stable_len_99. apply Z.ltb_lt. lia.
Qed.
Lemma sec_resolve s op dyn n i r : sec_rel s op dyn n i -> sec_has s dyn i -> op <> RoLiteral ->
  r_dynamic r = dyn -> r_left r = n ->
  match op with
  | RoIndexed | RoIndexedName => brel2abs c s r
  | RoIndexedPb | RoIndexedNamePb => pbrel2abs c s r
  | RoLiteral => Abort
  end = Ok (rs_set_absidx r i).
Proof.
  intros R H Ho D L.
  assert (V : validate_index c (rs_set_absidx r i) = true) by (apply (sec_has_valid s dyn i); auto).
  assert (B : sec_rel s RoIndexed dyn n i -> brel2abs c s r = Ok (rs_set_absidx r i)).
  { clear R. unfold sec_rel. intros R. unfold brel2abs. rewrite D, L. destruct dyn; cbn [andb].
    - destruct R as [R1 R2]. destruct (Z.ltb_spec (s_base s) (n + 1)); [lia|]. rewrite R1.
      cbn [rs_set_absidx r_absidx]. unfold sec_has in H. destruct (Z.geb_spec i (s_ricnt s)); [lia|]. rewrite V. reflexivity.
    - subst n. rewrite R. rewrite V. reflexivity. }
  assert (P : dyn = true /\ n + s_base s = i -> pbrel2abs c s r = Ok (rs_set_absidx r i)).
  { intros [P1 P2]. unfold pbrel2abs. rewrite D, L, P1, P2. cbn [negb rs_set_absidx r_absidx].
    unfold sec_has in H. rewrite P1 in H. destruct (Z.geb_spec i (s_ricnt s)); [lia|]. rewrite V. reflexivity. }
  destruct op; auto. congruence.
Qed.
Definition emitted (dyn : bool) (i : Z) : outcome qnv :=
  if dyn then match dtable_get c i with None => Abort | Some e => Ok (mk_qnv (e_name e) (e_value e) (e_token e) 0) end
  else match stable_get i with None => Abort | Some (n, v, t) => Ok (mk_qnv n v t 0) end.
Lemma rs_indexed s fb n N op dyn i q rest : s_start s -> 0 <= n < 2 ^ 62 -> bytes rest ->
  rop fb N op false dyn -> op = RoIndexed \/ op = RoIndexedPb ->
  sec_rel s op dyn n i -> sec_has s dyn i -> emitted dyn i = Ok q ->
  rs_run c s (q_put_varint fb n N ++ rest) = rev_ [q] (rs_run c (s_next s op) rest).
Proof.
  intros S Hn Br Hc Ho R H Em.
  destruct (rs_index s fb n N op false dyn rest S Hn Br Hc) as (p & sh & r & Q & Bp & Hp & I2 & Er & L0 & S0 & ->).
  apply rs_go; auto. unfold rs_step. cbn [s_set_op s_state]. unfold rs_read_index. cbn [s_set_op s_rs s_op].
  replace (r_prefix r) with N by (rewrite Er; reflexivity). rewrite L0, S0, Q.
  pose proof (sec_resolve (s_set_op s RsReadIndex op r) op dyn n i (rs_set_int r n sh) R H ltac:(destruct Ho; congruence) ltac:(rewrite Er; reflexivity) eq_refl) as RS.
  destruct Ho as [-> | ->]; rewrite RS; unfold emit_indexed; cbn [rs_set_absidx rs_set_int r_dynamic r_absidx];
    (replace (r_dynamic r) with dyn by (rewrite Er; reflexivity)); unfold emitted in Em; rewrite Em; reflexivity.
Qed.
Definition emitted_name (nev dyn : bool) (i : Z) (v : list Z) : outcome qnv :=
  let f := if nev then FLAG_NEVER_INDEX else 0 in
  if dyn then match dtable_get c i with None => Abort | Some e => Ok (mk_qnv (e_name e) v (e_token e) f) end
  else match stable_get i with None => Abort | Some (n, _, t) => Ok (mk_qnv n v t f) end.
Lemma rs_indexed_name s fb n N op nev dyn i v q rest : s_start s -> 0 <= n < 2 ^ 62 -> bytes rest ->
  bytes v -> zlen v <= MAX_VALUELEN ->
  rop fb N op nev dyn -> op = RoIndexedName \/ op = RoIndexedNamePb ->
  sec_rel s op dyn n i -> sec_has s dyn i -> emitted_name nev dyn i v = Ok q ->
  rs_run c s (q_put_varint fb n N ++ put_str 0 v 7 ++ rest) = rev_ [q] (rs_run c (s_next s op) rest).
Proof.
  intros S Hn Br Bv Lv Hc Ho R H Em.
  assert (Bs : bytes (put_str 0 v 7 ++ rest)).
  { destruct (put_str_read 0 v 7 rest ltac:(lia) eq_refl Bv ltac:(unfold MAX_VALUELEN in *; lia) Br) as (b & t' & -> & B & _). exact B. }
  destruct (rs_index s fb n N op nev dyn _ S Hn Bs Hc) as (p & sh & r & Q & Bp & Hp & I2 & Er & L0 & S0 & ->).
  pose proof (sec_resolve (s_set_op s RsReadIndex op r) op dyn n i (rs_set_int r n sh) R H ltac:(destruct Ho; congruence) ltac:(rewrite Er; reflexivity) eq_refl) as RS.
  assert (E : rs_step c (s_set_op s RsReadIndex op r) p =
    SGo (s_set_op s RsCheckValueHuffman op (rs_set_prefix (rs_set_absidx (rs_set_int r n sh) i) 7)) (put_str 0 v 7 ++ rest) false []).
  { unfold rs_step. cbn [s_set_op s_state]. unfold rs_read_index. cbn [s_set_op s_rs s_op].
    replace (r_prefix r) with N by (rewrite Er; reflexivity). rewrite L0, S0, Q.
    destruct Ho as [-> | ->]; rewrite RS; reflexivity. }
  rewrite (rs_go _ _ _ _ _ I2 Bp Hp E), rev_nil_. pose proof (rs_inv_go _ _ _ _ _ _ I2 Bp Hp E) as I3.
  rewrite (rs_value _ v rest q I3 eq_refl Bv Lv Br); [reflexivity|].
  intros r' Hv _ Ha Hd Hnv. cbn [s_set_op s_rs rs_set_prefix rs_set_absidx rs_set_int r_absidx r_dynamic r_never] in Ha, Hd, Hnv.
  assert (Dr : r_dynamic r = dyn) by (rewrite Er; reflexivity).
  assert (Nr : r_never r = nev) by (rewrite Er; reflexivity).
  assert (X : emit_indexed_name c r' = Ok q).
  { unfold emit_indexed_name, never_flag. rewrite Hd, Ha, Hv, Hnv, Dr, Nr. unfold emitted_name in Em. destruct dyn.
    - rewrite (sec_has_valid s true i r' H ltac:(congruence) Ha). exact Em.
    - exact Em. }
  unfold rs_out. cbn [s_set_op s_op]. destruct Ho as [-> | ->]; exact X.
Qed.
Lemma rs_literal s (nev : bool) n v rest : s_start s -> bytes rest ->
  bytes n -> zlen n <= MAX_NAMELEN -> bytes v -> zlen v <= MAX_VALUELEN ->
  rs_run c s (put_str (if nev then 48 else 32) n 3 ++ put_str 0 v 7 ++ rest) =
  rev_ [mk_qnv n v (lookup_token n) (if nev then FLAG_NEVER_INDEX else 0)] (rs_run c (s_next s RoLiteral) rest).
Proof.
  intros (I & St & Nv) Br Bn Ln Bv Lv.
  assert (Bs : bytes (put_str 0 v 7 ++ rest)).
  { destruct (put_str_read 0 v 7 rest ltac:(lia) eq_refl Bv ltac:(unfold MAX_VALUELEN in *; lia) Br) as (b & t' & -> & B & _). exact B. }
  destruct (put_str_read (if nev then 48 else 32) n 3 (put_str 0 v 7 ++ rest) ltac:(lia) ltac:(destruct nev; reflexivity) Bn ltac:(unfold MAX_NAMELEN in *; lia) Bs)
    as (b & t & Ep & Bp & Rb & Hb & sh & Q).
  assert (L0 : r_left (s_rs s) = 0 /\ r_shift (s_rs s) = 0) by (destruct I as (_ & _ & I'); rewrite St in I'; exact I').
  destruct L0 as [L0 S0].
  set (r1 := rs_set_op (s_rs s) 3 nev false).
  assert (E1 : rs_step c s (b :: t) = SGo (s_set_op s RsCheckNameHuffman RoLiteral r1) (b :: t) false []).
  { unfold rs_step. rewrite St. unfold rs_opcode_step. rewrite L0, S0. cbn [Z.eqb negb orb].
    apply bytes_cons in Bp as [Bb _]. destruct (rs_bits b Bb) as (B1 & B2 & B3 & B4).
    destruct (rs_bits2 b Bb) as (_ & _ & _ & _ & _ & _ & C7 & C8 & _).
    rewrite B1, B2, B3. change (2 ^ (3 + 1)) with 16 in Rb.
    destruct nev.
    - rewrite (proj2 (Z.leb_gt 128 b)), (proj2 (Z.leb_gt 64 b)), (proj2 (Z.leb_le 32 b)), (proj2 (Z.ltb_lt b 64)) by lia. cbn [andb]. rewrite C8 by lia. reflexivity.
    - rewrite (proj2 (Z.leb_gt 128 b)), (proj2 (Z.leb_gt 64 b)), (proj2 (Z.leb_le 32 b)), (proj2 (Z.ltb_lt b 64)) by lia. cbn [andb]. rewrite C7 by lia. reflexivity. }
  rewrite Ep, (rs_go _ _ _ _ _ I Bp ltac:(discriminate) E1), rev_nil_. pose proof (rs_inv_go _ _ _ _ _ _ I Bp ltac:(discriminate) E1) as I2.
  set (r2 := rs_alloc_name (rs_set_int (rs_check_huffman r1 b) (str_n n) sh)).
  assert (E2 : rs_step c (s_set_op s RsCheckNameHuffman RoLiteral r1) (b :: t) =
    SGo (s_set_op s (if str_huff n then RsReadNameHuffman else RsReadName) RoLiteral r2) (str_data n ++ put_str 0 v 7 ++ rest) false []).
  { unfold rs_step. cbn [s_set_op s_state s_rs]. unfold rs_read_namelen. cbn [rs_check_huffman r_prefix r_left r_shift r_hufenc r1 rs_set_op].
    rewrite Q. pose proof (str_n_range n Bn). destruct (Z.gtb_spec (str_n n) MAX_NAMELEN); [lia|]. rewrite Hb. reflexivity. }
  rewrite (rs_go _ _ _ _ _ I2 Bp ltac:(discriminate) E2), rev_nil_. pose proof (rs_inv_go _ _ _ _ _ _ I2 Bp ltac:(discriminate) E2) as I3.
  assert (Bd : bytes (str_data n ++ put_str 0 v 7 ++ rest)) by (apply bytes_app; split; [apply str_data_bytes; auto|auto]).
  assert (Nd : str_data n ++ put_str 0 v 7 ++ rest <> []).
  { destruct (put_str_read 0 v 7 rest ltac:(lia) eq_refl Bv ltac:(unfold MAX_VALUELEN in *; lia) Br) as (b' & t' & -> & _).
    intros X. apply app_eq_nil in X as [_ X]. discriminate. }
  destruct (read_str_back n (r_huff r2) (put_str 0 v 7 ++ rest) (r_ncap r2) Bn Bs) as (fs & RS).
  { subst r2. cbn. change (Z.land b 8) with (Z.land b (2 ^ 3)). rewrite Hb. reflexivity. }
  { intros Hh. subst r2. cbn. change (Z.land b 8) with (Z.land b (2 ^ 3)). rewrite Hb, Hh. reflexivity. }
  assert (E3 : rs_step c (s_set_op s (if str_huff n then RsReadNameHuffman else RsReadName) RoLiteral r2) (str_data n ++ put_str 0 v 7 ++ rest) =
    SGo (s_set_op s RsCheckValueHuffman RoLiteral (rs_set_prefix (rs_set_name r2 0 fs n) 7)) (put_str 0 v 7 ++ rest) false []).
  { transitivity (rs_read_name (str_huff n) (s_set_op s (if str_huff n then RsReadNameHuffman else RsReadName) RoLiteral r2) (str_data n ++ put_str 0 v 7 ++ rest)).
    { unfold rs_step. cbn [s_set_op s_state]. destruct (str_huff n); reflexivity. }
    unfold rs_read_name. cbn [s_set_op s_rs]. change (r_left r2) with (str_n n). change (r_name r2) with (@nil Z). rewrite RS. reflexivity. }
  rewrite (rs_go _ _ _ _ _ I3 Bd Nd E3), rev_nil_. pose proof (rs_inv_go _ _ _ _ _ _ I3 Bd Nd E3) as I4.
  rewrite (rs_value _ v rest (mk_qnv n v (lookup_token n) (if nev then FLAG_NEVER_INDEX else 0)) I4 eq_refl Bv Lv Br); [reflexivity|].
  intros r Hv Hn _ _ Hnv. unfold rs_out. cbn [s_set_op s_op]. unfold emit_literal, never_flag. rewrite Hn, Hv, Hnv. reflexivity.
Qed.
End Rep.
Lemma s_start_after s op : s_start s -> s_start (s_next s op).
Proof.
  intros ((I1 & I2 & _) & _). split; [|split; reflexivity]. split; [exact I1|]. split; [exact I2|]. split; reflexivity.
Qed.

(* RFC 9204 section 4.5.1.1: the encoded Required Insert Count determines it *)
Lemma reconstruct_encoded c m ricnt : m = hard_max c / 32 -> 0 < m -> 1 <= ricnt ->
  next_absidx c - m < ricnt <= next_absidx c + m ->
  reconstruct_ricnt c (ricnt mod (2 * m) + 1) = Ok ricnt.
Proof.
  intros Hm Pm H1 H2. unfold reconstruct_ricnt. rewrite <- Hm.
  pose proof (Z.mod_pos_bound ricnt (2 * m) ltac:(lia)) as Mb.
  rewrite (proj2 (Z.eqb_neq (ricnt mod (2 * m) + 1) 0)) by lia.
  destruct (Z.gtb_spec (ricnt mod (2 * m) + 1) (2 * m)); [lia|].
  rewrite (proj2 (Z.eqb_neq (2 * m) 0)) by lia.
  set (mx := next_absidx c + m) in *. set (k := mx / (2 * m)).
  pose proof (Z.div_mod ricnt (2 * m) ltac:(lia)) as D. pose proof (Z.div_mod mx (2 * m) ltac:(lia)) as D2.
  pose proof (Z.mod_pos_bound mx (2 * m) ltac:(lia)) as Mb2.
  fold k in D2. set (j := ricnt / (2 * m)) in *. set (rm := ricnt mod (2 * m)) in *. set (mm := mx mod (2 * m)) in *.
  assert (J : j = k \/ j = k - 1).
  { assert (j <= k) by (unfold j, k; apply Z.div_le_mono; lia).
    assert (k - 1 <= j) by (assert (ricnt > mx - 2 * m) by lia; nia). lia. }
  replace (k * (2 * m) + (rm + 1) - 1) with (ricnt + (k - j) * (2 * m)) by lia.
  destruct J as [J|J].
  - replace (k - j) with 0 by lia. rewrite Z.mul_0_l, Z.add_0_r. destruct (Z.gtb_spec ricnt mx); [lia|]. cbn [andb].
    rewrite (proj2 (Z.eqb_neq ricnt 0)) by lia. reflexivity.
  - replace (k - j) with 1 by lia. rewrite Z.mul_1_l. destruct (Z.gtb_spec (ricnt + 2 * m) mx); [|lia].
    destruct (Z.leb_spec (ricnt + 2 * m) (2 * m)); [lia|]. cbn [andb].
    replace (ricnt + 2 * m - 2 * m) with ricnt by lia. rewrite (proj2 (Z.eqb_neq ricnt 0)) by lia. reflexivity.
Qed.

(* the prefix of a section *)
Lemma rs_prefix c id enc ricnt base rest : ctx_ok c -> 0 <= enc < 2 ^ 62 -> 0 <= ricnt < 2 ^ 62 -> 0 <= base < 2 ^ 62 -> bytes rest ->
  reconstruct_ricnt c enc = Ok ricnt ->
  let sign := base <? ricnt in
  let delta := if sign then ricnt - base - 1 else base - ricnt in
  let p := q_put_varint 0 enc 8 ++ q_put_varint (if sign then 128 else 0) delta 7 ++ rest in
  if ricnt <=? next_absidx c then
    exists s, s_start s /\ s_id s = id /\ s_ricnt s = ricnt /\ s_base s = base /\
      rs_run c (sctx_init id) p = rs_run c s rest
  else exists s, rs_inv s /\ s_state s = RsBlocked /\ s_id s = id /\ s_ricnt s = ricnt /\ s_base s = base /\
      rs_run c (sctx_init id) p = RStop s rest [].
Proof.
  intros W He Hr Hb Br RC sign delta p. subst p.
  assert (Bsg : is_byte (if sign then 128 else 0)) by (unfold is_byte; destruct sign; lia).
  assert (Dl : 0 <= delta < 2 ^ 62) by (subst delta sign; destruct (Z.ltb_spec base ricnt); lia).
  destruct (put_int_read (if sign then 128 else 0) delta 7 rest ltac:(lia) Bsg ltac:(destruct sign; reflexivity) Dl Br)
    as (b2 & t2 & Ep2 & Bp2 & Rb2 & sh2 & Q2).
  rewrite Ep2.
  destruct (put_int_read 0 enc 8 (b2 :: t2) ltac:(lia) ltac:(unfold is_byte; lia) eq_refl He Bp2)
    as (b1 & t1 & Ep1 & Bp1 & Rb1 & sh1 & Q1).
  rewrite Ep1.
  pose proof (rs_inv_init id) as I0.
  set (s1 := s_set (s_set_ricnt (sctx_init id) ricnt) RsDbaseSign (rs_set_int (s_rs (sctx_init id)) enc sh1)).
  assert (E1 : rs_step c (sctx_init id) (b1 :: t1) = SGo s1 (b2 :: t2) false []).
  { unfold rs_step. cbn [sctx_init s_state]. unfold rs_read_ricnt. cbn [sctx_init s_rs rs_set_prefix r_prefix r_left r_shift rs_reset].
    rewrite Q1, RC. reflexivity. }
  rewrite (rs_go c W _ _ _ _ _ I0 Bp1 ltac:(discriminate) E1), rev_nil_.
  pose proof (rs_inv_go c W _ _ _ _ _ _ I0 Bp1 ltac:(discriminate) E1) as I1.
  assert (Sg : negb (Z.land b2 128 =? 0) = sign).
  { change (Z.land b2 128) with (Z.land b2 (2 ^ 7)). rewrite land_bit by lia. change (2 ^ (7 + 1)) with 256. change (2 ^ 7) with 128 in *.
    apply bytes_cons in Bp2 as [Bb _]. unfold is_byte in Bb. rewrite Z.mod_small by lia. destruct sign; lia. }
  set (sb := s_set_base (if sign then s_set_sign s1 true else s1) base).
  assert (S2 : s_ricnt (if sign then s_set_sign s1 true else s1) = ricnt) by (destruct sign; reflexivity).
  assert (Bse : (if sign then ricnt - delta - 1 else ricnt + delta) = base) by (subst delta; destruct sign; lia).
  set (r2 := rs_set_int (rs_set_int (rs_set_prefix (s_rs s1) 7) 0 0)).
  assert (E2 : rs_step c s1 (b2 :: t2) =
    if ricnt >? next_absidx c then SStop (s_set sb RsBlocked (r2 delta sh2)) rest []
    else SGo (s_set sb RsOpcode (r2 0 0)) rest false []).
  { unfold rs_step. cbn [s_set s_state s1]. fold s1. rewrite Sg. unfold rs_read_dbase.
    assert (Q3 : q_read_varint 7 0 0 (b2 :: t2) = Ok (delta, sh2, rest, true)) by exact Q2.
    replace (s_sign (if sign then s_set_sign s1 true else s1)) with sign by (destruct sign; reflexivity).
    replace (s_rs (if sign then s_set_sign s1 true else s1)) with (s_rs s1) by (destruct sign; reflexivity).
    cbn [rs_set_int rs_set_prefix r_prefix r_left r_shift]. rewrite Q3, S2, Bse.
    assert (X : sign && (ricnt <=? delta) = false).
    { subst delta sign. destruct (Z.ltb_spec base ricnt); cbn [andb]; [|reflexivity]. apply Z.leb_gt. lia. }
    rewrite X. cbn [s_set_base s_ricnt]. rewrite S2. reflexivity. }
  destruct (Z.leb_spec ricnt (next_absidx c)).
  - destruct (Z.gtb_spec ricnt (next_absidx c)); [lia|].
    exists (s_set sb RsOpcode (r2 0 0)). split; [|split; [|split; [|split]]].
    + split; [exact (rs_inv_go c W _ _ _ _ _ _ I1 Bp2 ltac:(discriminate) E2)|]. split; reflexivity.
    + subst sb; destruct sign; reflexivity.
    + subst sb; destruct sign; reflexivity.
    + subst sb; destruct sign; reflexivity.
    + rewrite (rs_go c W _ _ _ _ _ I1 Bp2 ltac:(discriminate) E2), rev_nil_. reflexivity.
  - destruct (Z.gtb_spec ricnt (next_absidx c)); [|lia].
    exists (s_set sb RsBlocked (r2 delta sh2)).
    pose proof (rs_step_sok c W s1 _ I1 Bp2 ltac:(left; discriminate)) as K. unfold rs_sok, step_ok in K. rewrite E2 in K.
    split; [apply K|]. split; [reflexivity|].
    split; [subst sb; destruct sign; reflexivity|]. split; [subst sb; destruct sign; reflexivity|]. split; [subst sb; destruct sign; reflexivity|].
    unfold rs_run. rewrite (rs_turn c W); [|exact I1|exact Bp2|discriminate|left; discriminate]. unfold turn. rewrite E2. reflexivity.
Qed.
(* a blocked section goes on when the table has grown *)
Lemma rs_unblock c s rest : ctx_ok c -> rs_inv s -> s_state s = RsBlocked -> s_ricnt s <= next_absidx c -> bytes rest -> rest <> [] ->
  exists s', s_start s' /\ s_id s' = s_id s /\ s_ricnt s' = s_ricnt s /\ s_base s' = s_base s /\
    rs_run c s rest = rs_run c s' rest.
Proof.
  intros W I St Hr Br Hne. exists (s_set s RsOpcode rs_reset).
  assert (E : rs_step c s rest = SGo (s_set s RsOpcode rs_reset) rest false []).
  { unfold rs_step. rewrite St. destruct (Z.gtb_spec (s_ricnt s) (next_absidx c)); [lia|reflexivity]. }
  split; [|split; [|split; [|split]]]; try reflexivity.
  - split; [exact (rs_inv_go c W _ _ _ _ _ _ I Br Hne E)|]. split; reflexivity.
  - rewrite (rs_go c W _ _ _ _ _ I Br Hne E), rev_nil_. reflexivity.
Qed.
