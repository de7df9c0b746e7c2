(* The field-section reader: invariant, cuts, no abort. *)
From Verif Require Import Base BaseLemmas Tables QpackIntModel QpackIntSpec QpackIntProofs
  HuffModel HuffSpec HuffProofs QpackTabModel QpackTabSpec QpackTabProofs QpackDynSpec QpackDynProofs
  Chunk QpackDecModel QpackReadProofs QpackDecProofs.

Definition sop_val (s : sctx) : Prop :=
  match s_op s with
  | RoIndexedName | RoIndexedNamePb => 0 <= r_absidx (s_rs s) /\ (r_dynamic (s_rs s) = false -> r_absidx (s_rs s) < 99)
  | RoLiteral => bytes (r_name (s_rs s))
  | _ => False
  end.
Definition rs_inv (s : sctx) : Prop :=
  0 <= s_ricnt s /\ 0 <= s_base s /\
  let r := s_rs s in
  match s_state s with
  | RsRicnt => r_prefix r = 8 /\ rs_ok (r_left r) (r_shift r)
  | RsDbaseSign => True
  | RsDbase => r_prefix r = 7 /\ rs_ok (r_left r) (r_shift r)
  | RsOpcode => r_left r = 0 /\ r_shift r = 0
  | RsReadIndex => rs_ok (r_left r) (r_shift r) /\
      match s_op s with
      | RoIndexed => r_prefix r = 6
      | RoIndexedPb => r_prefix r = 4 /\ r_dynamic r = true
      | RoIndexedName => r_prefix r = 4
      | RoIndexedNamePb => r_prefix r = 3 /\ r_dynamic r = true
      | RoLiteral => False
      end
  | RsCheckNameHuffman => s_op s = RoLiteral /\ r_prefix r = 3
  | RsReadNamelen => s_op s = RoLiteral /\ r_prefix r = 3 /\ rs_ok (r_left r) (r_shift r)
  | RsReadNameHuffman => s_op s = RoLiteral /\ str_ok true (r_left r) (r_huff r) (r_name r) (r_ncap r)
  | RsReadName => s_op s = RoLiteral /\ str_ok false (r_left r) (r_huff r) (r_name r) (r_ncap r)
  | RsCheckValueHuffman => r_prefix r = 7 /\ sop_val s
  | RsReadValuelen => r_prefix r = 7 /\ rs_ok (r_left r) (r_shift r) /\ sop_val s
  | RsReadValueHuffman => str_ok true (r_left r) (r_huff r) (r_value r) (r_vcap r) /\ sop_val s
  | RsReadValue => str_ok false (r_left r) (r_huff r) (r_value r) (r_vcap r) /\ sop_val s
  | RsBlocked => True
  end.
Definition rs_ce (s : sctx) : Prop := s_state s = RsReadValueHuffman \/ s_state s = RsReadValue.

Lemma rs_inv_init id : rs_inv (sctx_init id).
Proof. split; [cbn; lia|split; [cbn; lia|]]. cbn. split; [auto|apply rs_ok_0]. Qed.

Lemma reconstruct_cases c n : ctx_ok c -> 0 <= n ->
  match reconstruct_ricnt c n with
  | Ok r => 0 <= r
  | Err e => e = ERR_QPACK_DECOMPRESSION_FAILED
  | Abort => False
  end.
Proof.
  intros [W _] Hn. unfold reconstruct_ricnt. destruct (Z.eqb_spec n 0); [lia|].
  pose proof (wf_cap c W). pose proof (tab_at_len _ _ _ (wf_tab c W)). pose proof (zlen_nonneg _ (dtable c)).
  set (me := hard_max c / 32). assert (0 <= me) by (apply Z.div_pos; lia).
  destruct (Z.gtb_spec n (2 * me)); [auto|].
  destruct (Z.eqb_spec (2 * me) 0); [lia|].
  set (mx := next_absidx c + me). set (mw := mx / (2 * me) * (2 * me)).
  assert (Hmw : 0 <= mw <= mx).
  { unfold mw. assert (0 <= mx / (2 * me)) by (apply Z.div_pos; lia).
    pose proof (Z.mul_div_le mx (2 * me) ltac:(lia)). nia. }
  destruct (Z.gtb_spec (mw + n - 1) mx); cbn [andb].
  - destruct (Z.leb_spec (mw + n - 1) (2 * me)); [auto|].
    destruct (Z.eqb_spec (mw + n - 1 - 2 * me) 0); [auto|lia].
  - destruct (Z.eqb_spec (mw + n - 1) 0); [auto|lia].
Qed.

Section Sec.
Variable c : ctx.
Hypothesis Wc : ctx_ok c.

Definition rs_sok := step_ok (rs_step c) 8 rs_rank rs_inv rs_ce.
Lemma rs_err_ok s a e : (forall b, bytes b -> rs_step c s (a ++ b) = rs_fail e s) -> rs_sok s a (rs_fail e s).
Proof. intros H. split; [apply rs_inv_init|]. exact H. Qed.
Lemma rs_emit_ok s a v rest : rs_inv s -> bytes rest -> (8 * length rest + 5 < 8 * length a + rs_rank s)%nat ->
  (forall b, bytes b -> rs_step c s (a ++ b) = rs_emit s v (rest ++ b)) -> rs_sok s a (rs_emit s v rest).
Proof.
  intros (I1 & I2 & _) Hb Hm H. split; [split; [exact I1|split; [exact I2|cbn; auto]]|]. split; [auto|].
  split; [unfold measure; cbn; lia|]. split; [discriminate|]. exact H.
Qed.

Lemma brel_cases s r : 0 <= r_left r -> 0 <= s_base s ->
  match brel2abs c s r with
  | Ok r' => idx_ok c r' /\ r_dynamic r' = r_dynamic r
  | Err e => e = ERR_QPACK_DECOMPRESSION_FAILED
  | Abort => False
  end.
Proof.
  intros Hl Hb. unfold brel2abs. destruct (r_dynamic r) eqn:D; cbn [andb].
  - destruct (Z.ltb_spec (s_base s) (r_left r + 1)); [auto|]. destruct (_ >=? _); [auto|].
    destruct (validate_index c _) eqn:V; [|auto]. split; [split; [auto|cbn; lia]|cbn; auto].
  - destruct (validate_index c _) eqn:V; [|auto]. split; [split; [auto|cbn; lia]|cbn; auto].
Qed.
Lemma pbrel_cases s r : 0 <= r_left r -> 0 <= s_base s -> r_dynamic r = true ->
  match pbrel2abs c s r with
  | Ok r' => idx_ok c r' /\ r_dynamic r' = r_dynamic r
  | Err e => e = ERR_QPACK_DECOMPRESSION_FAILED
  | Abort => False
  end.
Proof.
  intros Hl Hb D. unfold pbrel2abs. rewrite D; cbn [negb]. destruct (_ >=? _); [auto|].
  destruct (validate_index c _) eqn:V; [|auto]. split; [split; [auto|cbn; lia]|cbn; auto].
Qed.
Lemma emit_indexed_ok r : idx_ok c r -> exists v, emit_indexed c r = Ok v.
Proof.
  intros I. pose proof (idx_ok_get c r Wc I) as G. unfold emit_indexed. destruct (r_dynamic r).
  - destruct G as (e & -> & _). eauto.
  - destruct G as (n & v & t & -> & _). eauto.
Qed.
Lemma emit_indexed_name_ok r : 0 <= r_absidx r -> (r_dynamic r = false -> r_absidx r < 99) ->
  emit_indexed_name c r <> Abort.
Proof.
  intros H0 H. unfold emit_indexed_name. destruct (r_dynamic r) eqn:D.
  - destruct (validate_index c r) eqn:V; cbn [negb]; [|discriminate].
    pose proof (idx_ok_get c r Wc (conj V H0)) as G. rewrite D in G. destruct G as (e & -> & _). discriminate.
  - destruct (stable_get_some (r_absidx r)) as (n & v & t & ->); [split; auto|discriminate].
Qed.

Lemma rs_read_ricnt_ok s a : rs_inv s -> bytes a -> a <> [] -> s_state s = RsRicnt ->
  rs_sok s a (rs_read_ricnt c s a).
Proof.
  intros (I1 & I2 & I) Ha Hne St. cbv zeta in I. rewrite St in I. destruct I as [Hp Hr].
  assert (ES : forall x, rs_step c s x = rs_read_ricnt c s x) by (intros; unfold rs_step; rewrite St; auto).
  assert (RK : rs_rank s = 1%nat) by (unfold rs_rank; rewrite St; auto).
  pose proof (q_read_split (r_prefix (s_rs s)) _ _ a ltac:(lia) Ha Hne Hr) as Q. unfold rs_read_ricnt at 1.
  destruct (q_read_varint (r_prefix (s_rs s)) (r_left (s_rs s)) (r_shift (s_rs s)) a)
    as [[[[l sh] rest] [|]]|e|] eqn:E; [| | |contradiction].
  - destruct Q as (Hl & Hb & Hlen & Q). pose proof (reconstruct_cases c l Wc ltac:(lia)) as R.
    destruct (reconstruct_ricnt c l) as [n|e|] eqn:RE; [| |contradiction].
    + split; [split; [exact R|split; [exact I2|cbn; auto]]|]. split; [auto|].
      split; [unfold measure; rewrite RK; cbn; lia|]. split; [discriminate|].
      intros b Hbb. rewrite ES. unfold rs_read_ricnt. rewrite Q, RE. auto.
    + apply rs_err_ok. intros b Hbb. rewrite ES. unfold rs_read_ricnt. rewrite Q, RE. auto.
  - destruct Q as (-> & Hr' & Hl & Q). split; [split; [exact I1|split; [exact I2|cbn; auto]]|].
    intros b Hb Hb'. rewrite ES. unfold rs_read_ricnt. rewrite Q by auto.
    unfold rs_step. cbn [s_state s_set]. unfold rs_read_ricnt. cbn [s_rs s_set rs_set_int r_prefix r_left r_shift].
    destruct (q_read_varint (r_prefix (s_rs s)) l sh b) as [[[[l2 s2] rest2] [|]]|e|]; auto.
    destruct (reconstruct_ricnt c l2); auto.
  - destruct Q as [-> Q]. apply rs_err_ok. intros b Hb. rewrite ES. unfold rs_read_ricnt. rewrite Q. auto.
Qed.

Lemma rs_read_dbase_ok s s0 r a : 0 <= s_ricnt s0 -> 0 <= s_base s0 -> s_id s0 = s_id s ->
  bytes a -> a <> [] -> r_prefix r = 7 -> rs_ok (r_left r) (r_shift r) -> (rs_rank s = 1)%nat ->
  (forall b, bytes b -> rs_step c s (a ++ b) = rs_read_dbase c s0 r (a ++ b)) ->
  rs_sok s a (rs_read_dbase c s0 r a).
Proof.
  intros I1 I2 Hid Ha Hne Hp Hr RK ES.
  pose proof (q_read_split (r_prefix r) _ _ a ltac:(lia) Ha Hne Hr) as Q. unfold rs_read_dbase at 1.
  destruct (q_read_varint (r_prefix r) (r_left r) (r_shift r) a)
    as [[[[l sh] rest] [|]]|e|] eqn:E; [| | |contradiction].
  - destruct Q as (Hl & Hb & Hlen & Q). destruct (s_sign s0 && (s_ricnt s0 <=? l)) eqn:SG.
    + unfold rs_fail at 1. rewrite Hid. apply rs_err_ok.
      intros b Hbb. rewrite ES by auto. unfold rs_read_dbase. rewrite Q, SG. unfold rs_fail; rewrite Hid; auto.
    + set (s1 := s_set_base s0 _).
      assert (B : 0 <= s_base s1).
      { unfold s1; cbn. destruct (s_sign s0); cbn in SG; lia. }
      destruct (s_ricnt s1 >? next_absidx c) eqn:BL.
      * split; [split; [exact I1|split; [exact B|cbn; auto]]|]. split; [auto|].
        intros b Hbb. rewrite ES by auto. unfold rs_read_dbase. rewrite Q, SG. fold s1. rewrite BL. auto.
      * split; [split; [exact I1|split; [exact B|cbn; auto]]|]. split; [auto|].
        split; [unfold measure; rewrite RK; cbn; lia|]. split; [discriminate|].
        intros b Hbb. rewrite ES by auto. unfold rs_read_dbase. rewrite Q, SG. fold s1. rewrite BL. auto.
  - destruct Q as (-> & Hr' & Hl & Q). split; [split; [exact I1|split; [exact I2|cbn; auto]]|].
    intros b Hb Hb'. rewrite ES by auto. unfold rs_read_dbase. rewrite Q by auto.
    unfold rs_step. cbn [s_state s_set]. unfold rs_read_dbase. cbn [s_rs s_set rs_set_int r_prefix r_left r_shift].
    destruct (q_read_varint (r_prefix r) l sh b) as [[[[l2 s2] rest2] [|]]|e|]; auto.
    cbn [s_sign s_ricnt s_set].
    destruct (s_sign s0 && (s_ricnt s0 <=? l2)); [reflexivity|]. cbn [s_ricnt s_set_base s_set].
    destruct (s_ricnt s0 >? next_absidx c); reflexivity.
  - destruct Q as [-> Q]. unfold rs_fail at 1. rewrite Hid. apply rs_err_ok. intros b Hb. rewrite ES by auto.
    unfold rs_read_dbase. rewrite Q. unfold rs_fail; rewrite Hid; auto.
Qed.

Lemma rs_read_index_ok s a : rs_inv s -> bytes a -> a <> [] -> s_state s = RsReadIndex ->
  rs_sok s a (rs_read_index c s a).
Proof.
  intros Hi Ha Hne St. pose proof Hi as (I1 & I2 & I). cbv zeta in I. rewrite St in I. destruct I as [Hr Hop].
  assert (Hp : 1 <= r_prefix (s_rs s) <= 8) by (destruct (s_op s); [..|contradiction]; lia).
  assert (ES : forall x, rs_step c s x = rs_read_index c s x) by (intros; unfold rs_step; rewrite St; auto).
  assert (RK : rs_rank s = 1%nat) by (unfold rs_rank; rewrite St; auto).
  pose proof (q_read_split _ _ _ a Hp Ha Hne Hr) as Q. unfold rs_read_index at 1.
  destruct (q_read_varint (r_prefix (s_rs s)) (r_left (s_rs s)) (r_shift (s_rs s)) a)
    as [[[[l sh] rest] [|]]|e|] eqn:E; [| | |contradiction].
  - destruct Q as (Hl & Hb & Hlen & Q). set (r := rs_set_int (s_rs s) l sh) in *. cbv zeta.
    assert (R : match (match s_op s with
           | RoIndexed | RoIndexedName => brel2abs c s r
           | RoIndexedPb | RoIndexedNamePb => pbrel2abs c s r
           | RoLiteral => Abort
           end) with
      | Ok r' => idx_ok c r' /\ r_dynamic r' = r_dynamic r
      | Err e => e = ERR_QPACK_DECOMPRESSION_FAILED | Abort => False end).
    { destruct (s_op s); [apply brel_cases|apply pbrel_cases|apply brel_cases|apply pbrel_cases|contradiction];
        auto; cbn; try lia; tauto. }
    set (ab := match s_op s with RoIndexed | RoIndexedName => brel2abs c s r | RoIndexedPb | RoIndexedNamePb => pbrel2abs c s r | RoLiteral => @Abort rstate end) in *.
    assert (EB : forall b, rs_step c s (a ++ b) = match ab with
      | Abort => SAbort | Err e => rs_fail e s
      | Ok r =>
      match s_op s with
      | RoIndexed | RoIndexedPb =>
        match emit_indexed c r with
        | Ok v => rs_emit s v (rest ++ b)
        | Err e => rs_fail e s
        | Abort => SAbort
        end
      | _ => SGo (s_set s RsCheckValueHuffman (rs_set_prefix r 7)) (rest ++ b) false []
      end end).
    { intros b. rewrite ES. unfold rs_read_index. rewrite Q. fold r. fold ab. reflexivity. }
    destruct ab as [r'|e|] eqn:RE; [| |contradiction].
    + destruct R as [R1 R2].
      assert (GoOk : sop_val (s_set s RsCheckValueHuffman (rs_set_prefix r' 7)) ->
        (forall b, rs_step c s (a ++ b) = SGo (s_set s RsCheckValueHuffman (rs_set_prefix r' 7)) (rest ++ b) false []) ->
        rs_sok s a (SGo (s_set s RsCheckValueHuffman (rs_set_prefix r' 7)) rest false [])).
      { intros SV EB'. split; [split; [exact I1|split; [exact I2|cbn; auto]]|]. split; [auto|].
        split; [unfold measure; rewrite RK; cbn; lia|]. split; [discriminate|]. auto. }
      assert (SV : r_dynamic r' = false -> r_absidx r' < 99).
      { destruct R1 as [V _]. unfold validate_index in V. intros D. rewrite D, stable_len_99 in V. lia. }
      destruct (emit_indexed_ok r' R1) as [v Ev].
      destruct (s_op s) eqn:Op; [| | | |contradiction].
      * rewrite Ev in *. apply rs_emit_ok; auto. lia.
      * rewrite Ev in *. apply rs_emit_ok; auto. lia.
      * apply GoOk; auto. unfold sop_val. cbn. rewrite Op. split; [apply R1|exact SV].
      * apply GoOk; auto. unfold sop_val. cbn. rewrite Op. split; [apply R1|exact SV].
    + apply rs_err_ok; auto.
  - destruct Q as (-> & Hr' & Hl & Q). split; [split; [exact I1|split; [exact I2|cbn; split; [exact Hr'|destruct (s_op s); auto]]]|].
    intros b Hb Hb'. rewrite ES. unfold rs_read_index. rewrite Q by auto.
    unfold rs_step. cbn [s_state s_set]. unfold rs_read_index. cbn [s_rs s_set rs_set_int r_prefix r_left r_shift s_op].
    destruct (q_read_varint (r_prefix (s_rs s)) l sh b) as [[[[l2 s2] rest2] [|]]|e|]; auto.
    unfold rs_set_int; cbn [r_huff r_name r_ncap r_value r_vcap r_prefix r_absidx r_never r_dynamic r_hufenc].
    destruct (s_op s); unfold brel2abs, pbrel2abs; cbn [s_base s_ricnt s_set]; try reflexivity;
    match goal with |- context [match ?X with Ok _ => _ | Err _ => _ | Abort => _ end] => destruct X as [r'|e|]; auto end;
    destruct (emit_indexed c r'); auto.
  - destruct Q as [-> Q]. apply rs_err_ok. intros b Hb. rewrite ES. unfold rs_read_index. rewrite Q. auto.
Qed.

Lemma rs_read_namelen_ok s r a : 0 <= s_ricnt s -> 0 <= s_base s -> bytes a -> a <> [] -> s_op s = RoLiteral ->
  r_prefix r = 3 -> rs_ok (r_left r) (r_shift r) -> (1 <= rs_rank s)%nat ->
  (forall b, bytes b -> rs_step c s (a ++ b) = rs_read_namelen s r (a ++ b)) ->
  rs_sok s a (rs_read_namelen s r a).
Proof.
  intros I1 I2 Ha Hne Op Hp Hr RK ES.
  pose proof (q_read_split (r_prefix r) _ _ a ltac:(lia) Ha Hne Hr) as Q. unfold rs_read_namelen at 1.
  destruct (q_read_varint (r_prefix r) (r_left r) (r_shift r) a)
    as [[[[l sh] rest] [|]]|e|] eqn:E; [| | |contradiction].
  - destruct Q as (Hl & Hb & Hlen & Q). destruct (l >? MAX_NAMELEN) eqn:G.
    + apply rs_err_ok. intros b Hbb. rewrite ES by auto. unfold rs_read_namelen. rewrite Q, G. auto.
    + split; [|split; [auto|split; [|split; [discriminate|]]]].
      * split; [exact I1|split; [exact I2|]].
        pose proof (str_ok_init (r_hufenc r) l (r_huff r) ltac:(lia)) as SI.
        destruct (r_hufenc r) eqn:HE; cbn; rewrite HE; cbn; (split; [exact Op|exact SI]).
      * unfold measure. destruct (r_hufenc r); cbn; lia.
      * intros b Hbb. rewrite ES by auto. unfold rs_read_namelen. rewrite Q, G. auto.
  - destruct Q as (-> & Hr' & Hl & Q). split; [split; [exact I1|split; [exact I2|cbn; auto]]|].
    intros b Hb Hb'. rewrite ES by auto. unfold rs_read_namelen. rewrite Q by auto.
    unfold rs_step. cbn [s_state s_set]. unfold rs_read_namelen. cbn [s_rs s_set rs_set_int r_prefix r_left r_shift].
    destruct (q_read_varint (r_prefix r) l sh b) as [[[[l2 s2] rest2] [|]]|e|]; auto.
    destruct (l2 >? MAX_NAMELEN); auto.
  - destruct Q as [-> Q]. apply rs_err_ok. intros b Hb. rewrite ES by auto. unfold rs_read_namelen. rewrite Q. auto.
Qed.
Lemma rs_read_valuelen_ok s r a : 0 <= s_ricnt s -> 0 <= s_base s -> bytes a -> a <> [] ->
  sop_val (s_set s (s_state s) r) ->
  r_prefix r = 7 -> rs_ok (r_left r) (r_shift r) -> (1 <= rs_rank s)%nat ->
  (forall b, bytes b -> rs_step c s (a ++ b) = rs_read_valuelen s r (a ++ b)) ->
  rs_sok s a (rs_read_valuelen s r a).
Proof.
  intros I1 I2 Ha Hne Op Hp Hr RK ES.
  pose proof (q_read_split (r_prefix r) _ _ a ltac:(lia) Ha Hne Hr) as Q. unfold rs_read_valuelen at 1.
  destruct (q_read_varint (r_prefix r) (r_left r) (r_shift r) a)
    as [[[[l sh] rest] [|]]|e|] eqn:E; [| | |contradiction].
  - destruct Q as (Hl & Hb & Hlen & Q). destruct (l >? MAX_VALUELEN) eqn:G.
    + apply rs_err_ok. intros b Hbb. rewrite ES by auto. unfold rs_read_valuelen. rewrite Q, G. auto.
    + split; [|split; [auto|split; [|split]]].
      * split; [exact I1|split; [exact I2|]].
        pose proof (str_ok_init (r_hufenc r) l (r_huff r) ltac:(lia)) as SI.
        destruct (r_hufenc r) eqn:HE; cbn; rewrite HE; cbn; (split; [exact SI|exact Op]).
      * unfold measure. destruct (r_hufenc r); cbn; lia.
      * intros _. unfold rs_ce. destruct (r_hufenc r); cbn; auto.
      * intros b Hbb. rewrite ES by auto. unfold rs_read_valuelen. rewrite Q, G. auto.
  - destruct Q as (-> & Hr' & Hl & Q). split; [split; [exact I1|split; [exact I2|cbn; split; [exact Hp|split; [exact Hr'|exact Op]]]]|].
    intros b Hb Hb'. rewrite ES by auto. unfold rs_read_valuelen. rewrite Q by auto.
    unfold rs_step. cbn [s_state s_set]. unfold rs_read_valuelen. cbn [s_rs s_set rs_set_int r_prefix r_left r_shift].
    destruct (q_read_varint (r_prefix r) l sh b) as [[[[l2 s2] rest2] [|]]|e|]; auto.
    destruct (l2 >? MAX_VALUELEN); auto.
  - destruct Q as [-> Q]. apply rs_err_ok. intros b Hb. rewrite ES by auto. unfold rs_read_valuelen. rewrite Q. auto.
Qed.

Lemma rs_read_name_ok (huf : bool) s a : rs_inv s -> bytes a -> a <> [] ->
  s_state s = (if huf then RsReadNameHuffman else RsReadName) -> rs_sok s a (rs_read_name huf s a).
Proof.
  intros (I1 & I2 & I) Ha Hne St.
  assert (I' : s_op s = RoLiteral /\ str_ok huf (r_left (s_rs s)) (r_huff (s_rs s)) (r_name (s_rs s)) (r_ncap (s_rs s))).
  { cbv zeta in I. rewrite St in I. destruct huf; exact I. }
  destruct I' as [Op Hs]. clear I.
  assert (ES : forall x, rs_step c s x = rs_read_name huf s x)
    by (intros; unfold rs_step; rewrite St; destruct huf; auto).
  assert (RK : rs_rank s = 3%nat) by (unfold rs_rank; rewrite St; destruct huf; auto).
  pose proof (read_str_split huf _ _ _ _ a Ha Hs) as Q. unfold rs_read_name at 1.
  destruct (read_str huf (r_left (s_rs s)) (r_huff (s_rs s)) (r_name (s_rs s)) (r_ncap (s_rs s)) a)
    as [[[[lft fs] name] rest]|e|] eqn:E; [| |contradiction].
  - destruct (Z.eqb_spec lft 0) as [->|Hl]; cbn [negb].
    + destruct Q as (Hb & -> & Hle & Q). split; [|split; [apply bytes_skipn; auto|split; [|split; [discriminate|]]]].
      * split; [exact I1|split; [exact I2|]]. cbn. split; [auto|]. unfold sop_val. cbn. rewrite Op. exact Hb.
      * unfold measure. rewrite RK. cbn. rewrite skipn_length. lia.
      * intros b Hbb. rewrite ES. unfold rs_read_name. rewrite Q by auto. cbn [negb Z.eqb]. auto.
    + destruct Q as (-> & Hs' & Hl' & Q). split.
      * split; [exact I1|split; [exact I2|]]. cbn. rewrite St. destruct huf; (split; [exact Op|exact Hs']).
      * intros b Hbb _. rewrite !ES. unfold rs_step. cbn [s_state s_set]. rewrite St.
        assert (ES2 : rs_read_name huf s (a ++ b) = sev [] (rs_read_name huf
            (s_set s (s_state s) (rs_set_name (s_rs s) lft fs name)) b)).
        { unfold rs_read_name. rewrite Q by auto.
          cbn [s_rs s_set rs_set_name r_left r_huff r_name r_ncap s_state].
          destruct (read_str huf lft fs name (r_ncap (s_rs s)) b) as [[[[l2 f2] n2] rest2]|e|]; auto.
          destruct (negb (l2 =? 0)); auto. }
        rewrite ES2, St. destruct huf; reflexivity.
  - apply rs_err_ok. intros b Hb. destruct (Q b Hb) as [e' Q']. rewrite ES. unfold rs_read_name. rewrite Q'. auto.
Qed.

Definition rs_out (s : sctx) (r : rstate) : outcome qnv :=
  match s_op s with
  | RoIndexedName | RoIndexedNamePb => emit_indexed_name c r
  | RoLiteral => Ok (emit_literal r)
  | _ => Abort
  end.
Lemma rs_out_ok s r : sop_val (s_set s (s_state s) r) -> rs_out s r <> Abort.
Proof.
  unfold sop_val, rs_out. cbn. destruct (s_op s); try tauto; try discriminate;
  intros [A B]; apply emit_indexed_name_ok; auto.
Qed.

Lemma rs_read_value_ok (huf : bool) s a : rs_inv s -> bytes a ->
  s_state s = (if huf then RsReadValueHuffman else RsReadValue) -> rs_sok s a (rs_read_value c huf s a).
Proof.
  intros Hi Ha St. pose proof Hi as (I1 & I2 & I).
  assert (I' : str_ok huf (r_left (s_rs s)) (r_huff (s_rs s)) (r_value (s_rs s)) (r_vcap (s_rs s)) /\ sop_val s).
  { cbv zeta in I. rewrite St in I. destruct huf; exact I. }
  destruct I' as [Hs Op]. clear I.
  assert (ES : forall x, rs_step c s x = rs_read_value c huf s x)
    by (intros; unfold rs_step; rewrite St; destruct huf; auto).
  assert (RK : rs_rank s = 6%nat) by (unfold rs_rank; rewrite St; destruct huf; auto).
  pose proof (read_str_split huf _ _ _ _ a Ha Hs) as Q. unfold rs_read_value at 1.
  destruct (read_str huf (r_left (s_rs s)) (r_huff (s_rs s)) (r_value (s_rs s)) (r_vcap (s_rs s)) a)
    as [[[[lft fs] value] rest]|e|] eqn:E; [| |contradiction].
  - destruct (Z.eqb_spec lft 0) as [->|Hl]; cbn [negb]; cbv zeta.
    + destruct Q as (Hb & -> & Hle & Q).
      pose proof (rs_out_ok s (rs_set_value (s_rs s) 0 fs value) Op) as A.
      assert (ESb : forall b, bytes b -> rs_step c s (a ++ b) = match rs_out s (rs_set_value (s_rs s) 0 fs value) with
         | Ok v => rs_emit s v (skipn (Z.to_nat (r_left (s_rs s))) a ++ b)
         | Err e => rs_fail e s | Abort => SAbort end).
      { intros b Hbb. rewrite ES. unfold rs_read_value. rewrite Q by auto. cbn [negb Z.eqb]. auto. }
      fold (rs_out s (rs_set_value (s_rs s) 0 fs value)).
      destruct (rs_out s (rs_set_value (s_rs s) 0 fs value)) as [v|e|]; [| |congruence].
      * apply rs_emit_ok; [auto|apply bytes_skipn; auto|rewrite RK, skipn_length; lia|auto].
      * apply rs_err_ok; auto.
    + destruct Q as (-> & Hs' & Hl' & Q). split.
      * split; [exact I1|split; [exact I2|]]. cbn. rewrite St. destruct huf; (split; [exact Hs'|exact Op]).
      * intros b Hbb _. rewrite !ES. unfold rs_step. cbn [s_state s_set]. rewrite St.
        assert (ES2 : rs_read_value c huf s (a ++ b) = sev [] (rs_read_value c huf
            (s_set s (s_state s) (rs_set_value (s_rs s) lft fs value)) b)).
        { unfold rs_read_value. rewrite Q by auto.
          cbn [s_rs s_set rs_set_value r_left r_huff r_value r_vcap s_state s_op].
          destruct (read_str huf lft fs value (r_vcap (s_rs s)) b) as [[[[l2 f2] n2] rest2]|e|]; auto.
          destruct (negb (l2 =? 0)); auto.
          unfold rs_set_value. cbn [r_name r_ncap r_vcap r_prefix r_shift r_absidx r_never r_dynamic r_hufenc].
          destruct (s_op s); auto; destruct (emit_indexed_name c _); auto. }
        rewrite ES2, St. destruct huf; reflexivity.
  - apply rs_err_ok. intros b Hb. destruct (Q b Hb) as [e' Q']. rewrite ES. unfold rs_read_value. rewrite Q'. auto.
Qed.

Lemma rs_step_sok s a : rs_inv s -> bytes a -> runnable rs_ce s a -> rs_sok s a (rs_step c s a).
Proof.
  intros Hi Ha R. assert (Hne : a <> [] \/ rs_ce s) by exact R. clear R.
  pose proof Hi as (I1 & I2 & I). cbv zeta in I.
  assert (R0 : rs_ok 0 0) by apply rs_ok_0.
  unfold rs_step at 1. destruct (s_state s) eqn:St.
  all: try (assert (Hn : a <> []) by (destruct Hne as [|[C|C]]; [auto|congruence..])).
  - apply rs_read_ricnt_ok; auto.
  - destruct a as [|x a]; [congruence|].
    set (s0 := if negb (Z.land x 128 =? 0) then s_set_sign s true else s).
    apply rs_read_dbase_ok; auto.
    + unfold s0; destruct (negb _); auto.
    + unfold s0; destruct (negb _); auto.
    + unfold s0; destruct (negb _); auto.
    + unfold rs_rank; rewrite St; auto.
    + intros b Hb. unfold rs_step. rewrite St. cbn [app]. auto.
  - destruct I as [Hp Hr]. apply rs_read_dbase_ok; auto.
    + unfold rs_rank; rewrite St; auto.
    + intros b Hb. unfold rs_step. rewrite St. auto.
  - destruct a as [|x a]; [congruence|]. destruct I as [Hl Hs].
    assert (G : forall op prefix nev dyn st,
      (forall b, bytes b -> rs_step c s ((x :: a) ++ b) = SGo (s_set_op s st op (rs_set_op (s_rs s) prefix nev dyn)) ((x :: a) ++ b) false []) ->
      (rs_inv (s_set_op s st op (rs_set_op (s_rs s) prefix nev dyn))) ->
      (rs_rank (s_set_op s st op (rs_set_op (s_rs s) prefix nev dyn)) < 5)%nat ->
      rs_sok s (x :: a) (SGo (s_set_op s st op (rs_set_op (s_rs s) prefix nev dyn)) (x :: a) false [])).
    { intros op prefix nev dyn st G1 G2 G3. split; [auto|]. split; [auto|]. split; [|split; [discriminate|auto]].
      unfold measure. replace (rs_rank s) with 5%nat by (unfold rs_rank; rewrite St; auto). lia. }
    unfold rs_opcode_step. rewrite Hl, Hs. cbn [Z.eqb negb orb].
    assert (ES : forall b, rs_step c s ((x :: a) ++ b) = rs_opcode_step s x ((x :: a) ++ b)).
    { intros b. unfold rs_step. rewrite St. auto. }
    unfold rs_opcode_step in ES. rewrite Hl, Hs in ES. cbn [Z.eqb negb orb] in ES. cbv zeta in *.
    destruct (128 <=? Z.land x 240); [|destruct (64 <=? Z.land x 240);
      [|destruct ((Z.land x 240 =? 32) || (Z.land x 240 =? 48)); [|destruct (Z.land x 240 =? 16)]]].
    all: apply G; [intros b Hb; apply ES|split; [exact I1|split; [exact I2|cbn; rewrite ?Hl, ?Hs; auto]]|cbn; lia].
  - apply rs_read_index_ok; auto.
  - destruct a as [|x a]; [congruence|]. destruct I as [Op Hp]. apply rs_read_namelen_ok; auto.
    + unfold rs_rank; rewrite St; lia.
    + intros b Hb. unfold rs_step. rewrite St. cbn [app]. auto.
  - destruct I as (Op & Hp & Hr). apply rs_read_namelen_ok; auto.
    + unfold rs_rank; rewrite St; lia.
    + intros b Hb. unfold rs_step. rewrite St. auto.
  - apply rs_read_name_ok; auto.
  - apply rs_read_name_ok; auto.
  - destruct a as [|x a]; [congruence|]. destruct I as [Hp Op]. apply rs_read_valuelen_ok; auto.
    + unfold rs_rank; rewrite St; lia.
    + intros b Hb. unfold rs_step. rewrite St. cbn [app]. auto.
  - destruct I as (Hp & Hr & Op). apply rs_read_valuelen_ok; auto.
    + unfold rs_rank; rewrite St; lia.
    + intros b Hb. unfold rs_step. rewrite St. auto.
  - apply rs_read_value_ok; auto.
  - apply rs_read_value_ok; auto.
  - assert (ES : forall x, rs_step c s x = if s_ricnt s >? next_absidx c then SStop s x [] else SGo (s_set s RsOpcode rs_reset) x false []).
    { intros x. unfold rs_step. rewrite St. auto. }
    destruct (s_ricnt s >? next_absidx c).
    + split; [auto|]. split; [auto|]. intros; apply ES.
    + split; [split; [auto|split; [auto|cbn; auto]]|]. split; [auto|]. split.
      * unfold measure. replace (rs_rank s) with 6%nat by (unfold rs_rank; rewrite St; auto). cbn; lia.
      * split; [discriminate|]. intros; apply ES.
Qed.
End Sec.
