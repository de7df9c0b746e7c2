(* The encoder-stream and field-section readers: invariants, cuts. *)
From Verif Require Import Base BaseLemmas Tables QpackIntModel QpackIntSpec QpackIntProofs
  HuffModel HuffSpec HuffProofs QpackTabModel QpackTabSpec QpackTabProofs QpackDynSpec QpackDynProofs
  Chunk QpackDecModel QpackReadProofs.

(* ---- table operations keep ctx_ok ---- *)
Lemma stable_bytes i n v t : stable_get i = Some (n, v, t) -> bytes n /\ bytes v.
Proof.
  intros H. apply stable_get_in in H.
  assert (K : forallb (fun r => let '(n, v, _) := r in forallb is_byteb n && forallb is_byteb v) stable = true)
    by (vm_compute; reflexivity).
  rewrite forallb_forall in K. apply K in H. cbv beta iota in H. apply andb_true_iff in H as [H1 H2].
  rewrite forallb_forall in H1, H2. split; apply Forall_forall; intros x Hx; apply is_byteb_spec; auto.
Qed.

Lemma ctx_ok_bad c : ctx_ok c -> ctx_ok (ctx_bad c).
Proof. intros [[W1 W2 W3] H]. split; [constructor|]; cbn; auto. Qed.

Lemma dec_set_cap_spec c cap : ctx_ok c -> 0 <= cap ->
  if cap >? hard_max c then dec_set_cap c cap = Err ERR_INVALID_ARGUMENT
  else exists c', dec_set_cap c cap = Ok c' /\ ctx_ok c' /\ dtable c' = fit (dtable c) cap /\
    max_cap c' = cap /\ next_absidx c' = next_absidx c /\ hard_max c' = hard_max c /\ bad c' = bad c /\
    dtable_sum c' = dtable_sum c /\ max_blocked c' = max_blocked c.
Proof.
  intros [W Hs] Hc. unfold dec_set_cap. destruct (Z.gtb_spec cap (hard_max c)); [auto|].
  rewrite (wf_size c W), evict_loop_spec by lia. replace (cap - 0) with cap by lia.
  eexists; split; [reflexivity|]. cbn [dtable max_cap next_absidx hard_max bad dtable_sum max_blocked]. rewrite rev_involutive.
  split; [|repeat split; auto].
  destruct (fit_prefix (dtable c) cap) as [t Ep]. pose proof (fit_size (dtable c) cap Hc).
  split; [constructor|]; cbn [dtable max_cap next_absidx hard_max bad dtable_sum dtable_size]; try lia; auto.
  eapply tab_at_prefix. rewrite <- Ep. apply (wf_tab c W).
Qed.

Lemma dec_add_spec c name value : ctx_ok c -> bytes name -> bytes value ->
  if fld_size (name, value) >? max_cap c then dec_add c name value (lookup_token name) = Err ERR_QPACK_ENCODER_STREAM_ERROR
  else exists c', dec_add c name value (lookup_token name) = Ok c' /\ ctx_ok c' /\
    dtable c' = mk_ent name value (lookup_token name) (dtable_sum c) (next_absidx c) 0
                :: fit (dtable c) (max_cap c - fld_size (name, value)) /\
    next_absidx c' = next_absidx c + 1 /\ max_cap c' = max_cap c /\ hard_max c' = hard_max c /\
    bad c' = bad c /\ max_blocked c' = max_blocked c /\ dtable_sum c' = dtable_sum c + fld_size (name, value).
Proof.
  intros [W Hs] Hn Hv. unfold dec_add.
  assert (Es : table_space (zlen name) (zlen value) = fld_size (name, value))
    by (unfold table_space, fld_size; cbn [fst snd]; lia).
  rewrite Es. destruct (Z.gtb_spec (fld_size (name, value)) (max_cap c)); [auto|].
  apply dtable_add_spec; auto.
Qed.
Lemma dec_add_cases c name value t : ctx_ok c -> t = lookup_token name -> bytes name -> bytes value ->
  match dec_add c name value t with
  | Ok c' => ctx_ok c' /\ hard_max c' = hard_max c /\ bad c' = bad c
  | Err e => e = ERR_QPACK_ENCODER_STREAM_ERROR
  | Abort => False
  end.
Proof.
  intros W -> Hn Hv. pose proof (dec_add_spec c name value W Hn Hv) as H.
  destruct (fld_size (name, value) >? max_cap c); [rewrite H; auto|].
  destruct H as (c' & -> & H1 & _ & _ & _ & H2 & H3 & _). auto.
Qed.
Lemma dec_set_cap_cases c cap : ctx_ok c -> 0 <= cap ->
  match dec_set_cap c cap with
  | Ok c' => ctx_ok c' /\ hard_max c' = hard_max c /\ bad c' = bad c
  | Err e => True
  | Abort => False
  end.
Proof.
  intros W Hc. pose proof (dec_set_cap_spec c cap W Hc) as H.
  destruct (cap >? hard_max c); [rewrite H; auto|].
  destruct H as (c' & -> & H1 & _ & _ & _ & H2 & H3 & _). auto.
Qed.

Definition idx_ok (c : ctx) (r : rstate) : Prop := validate_index c r = true /\ 0 <= r_absidx r.

Lemma idx_ok_get c r : ctx_ok c -> idx_ok c r -> 
  if r_dynamic r then exists e, dtable_get c (r_absidx r) = Some e /\ e_token e = lookup_token (e_name e) /\ bytes (e_name e) /\ bytes (e_value e)
  else exists n v t, stable_get (r_absidx r) = Some (n, v, t) /\ t = lookup_token n /\ bytes n /\ bytes v.
Proof.
  intros [W _] [H H0]. unfold validate_index in H. destruct (r_dynamic r).
  - destruct (dtable_get_some c (r_absidx r) W) as (e & E & _); [lia|].
    exists e. destruct (dtable_get_inv _ _ _ W E) as (_ & _ & _ & A & B & C). auto.
  - rewrite stable_len_99 in H. destruct (stable_get_some (r_absidx r)) as (n & v & t & E); [lia|].
    exists n, v, t. destruct (stable_get_token _ _ _ _ E). destruct (stable_bytes _ _ _ _ E). auto.
Qed.
Lemma dec_indexed_add_cases c r : ctx_ok c -> idx_ok c r -> bytes (r_value r) ->
  match dec_indexed_add c r with
  | Ok c' => ctx_ok c' /\ hard_max c' = hard_max c /\ bad c' = bad c
  | Err e => e = ERR_QPACK_ENCODER_STREAM_ERROR
  | Abort => False
  end.
Proof.
  intros W I Hv. pose proof (idx_ok_get c r W I) as G. unfold dec_indexed_add. destruct (r_dynamic r).
  - destruct G as (e & -> & A & B & C). apply dec_add_cases; auto.
  - destruct G as (n & v & t & -> & A & B & C). apply dec_add_cases; auto.
Qed.
Lemma dec_duplicate_add_cases c r : ctx_ok c -> idx_ok c r -> r_dynamic r = true ->
  match dec_duplicate_add c r with
  | Ok c' => ctx_ok c' /\ hard_max c' = hard_max c /\ bad c' = bad c
  | Err e => e = ERR_QPACK_ENCODER_STREAM_ERROR
  | Abort => False
  end.
Proof.
  intros W I Hd. pose proof (idx_ok_get c r W I) as G. unfold dec_duplicate_add. rewrite Hd in G.
  destruct G as (e & -> & A & B & C). apply dec_add_cases; auto.
Qed.
Lemma rel2abs_cases c r : 0 <= r_left r ->
  match rel2abs c r with
  | Ok r' => idx_ok c r' /\ r_dynamic r' = r_dynamic r /\ r_name r' = r_name r /\ r_prefix r' = r_prefix r
  | Err e => e = ERR_QPACK_ENCODER_STREAM_ERROR
  | Abort => False
  end.
Proof.
  intros Hl. unfold rel2abs. destruct (r_dynamic r) eqn:D; cbn [andb].
  - destruct (Z.ltb_spec (next_absidx c) (r_left r + 1)); [auto|].
    destruct (validate_index c _) eqn:V; [|auto]. unfold idx_ok. split; [split; [auto|cbn; lia]|cbn; auto].
  - destruct (validate_index c _) eqn:V; [|auto]. unfold idx_ok. split; [split; [auto|cbn; lia]|cbn; auto].
Qed.

(* ---- invariant of the encoder-stream reader ---- *)
Definition op_val (d : dec) : Prop :=
  match d_op d with
  | OpInsertIndexed => idx_ok (d_ctx d) (d_rs d)
  | OpInsert => bytes (r_name (d_rs d))
  | _ => False
  end.
Definition es_inv (d : dec) : Prop :=
  ctx_ok (d_ctx d) /\
  let r := d_rs d in
  match d_state d with
  | EsOpcode => r = rs_reset
  | EsReadIndex => rs_ok (r_left r) (r_shift r) /\
      match d_op d with
      | OpInsertIndexed => r_prefix r = 6
      | OpDuplicate => r_prefix r = 5 /\ r_dynamic r = true
      | OpSetCap => r_prefix r = 5
      | OpInsert => False
      end
  | EsCheckNameHuffman => d_op d = OpInsert /\ r_prefix r = 5
  | EsReadNamelen => d_op d = OpInsert /\ r_prefix r = 5 /\ rs_ok (r_left r) (r_shift r)
  | EsReadNameHuffman => d_op d = OpInsert /\ str_ok true (r_left r) (r_huff r) (r_name r) (r_ncap r)
  | EsReadName => d_op d = OpInsert /\ str_ok false (r_left r) (r_huff r) (r_name r) (r_ncap r)
  | EsCheckValueHuffman => r_prefix r = 7 /\ op_val d
  | EsReadValuelen => r_prefix r = 7 /\ rs_ok (r_left r) (r_shift r) /\ op_val d
  | EsReadValueHuffman => str_ok true (r_left r) (r_huff r) (r_value r) (r_vcap r) /\ op_val d
  | EsReadValue => str_ok false (r_left r) (r_huff r) (r_value r) (r_vcap r) /\ op_val d
  end.
Definition es_ce (d : dec) : Prop := d_state d = EsReadValueHuffman \/ d_state d = EsReadValue.

Lemma es_inv_init hard blocked : 0 <= hard -> es_inv (dec_init hard blocked).
Proof. intros H. split; [apply ctx_ok_init; auto|]. reflexivity. Qed.
Lemma es_inv_fail d : ctx_ok (d_ctx d) -> es_inv (d_fail d).
Proof. intros H. split; [apply ctx_ok_bad; exact H|]. reflexivity. Qed.

Definition es_ok := step_ok es_step 8 es_rank es_inv es_ce.
Lemma es_err_ok d a e : ctx_ok (d_ctx d) -> (forall b, bytes b -> es_step d (a ++ b) = es_fail e d) ->
  es_ok d a (es_fail e d).
Proof. intros W H. split; [apply es_inv_fail; auto|]. exact H. Qed.
Lemma es_done_ok d a c rest : ctx_ok c -> bytes rest -> (8 * length rest + 5 < 8 * length a + es_rank d)%nat ->
  (forall b, bytes b -> es_step d (a ++ b) = es_done d c (rest ++ b)) ->
  es_ok d a (es_done d c rest).
Proof.
  intros W Hb Hm H. split; [split; [exact W|reflexivity]|]. split; [auto|].
  split; [unfold measure; cbn; lia|]. split; [discriminate|]. exact H.
Qed.

Lemma es_read_index_ok d a : es_inv d -> bytes a -> a <> [] -> d_state d = EsReadIndex ->
  es_ok d a (es_read_index d a).
Proof.
  intros [W I] Ha Hne St. cbv zeta in I. rewrite St in I. destruct I as [Hr Hop].
  assert (Hp : 1 <= r_prefix (d_rs d) <= 8) by (destruct (d_op d); [|contradiction|..]; lia).
  assert (ES : forall x, es_step d x = es_read_index d x) by (intros; unfold es_step; rewrite St; auto).
  assert (RK : es_rank d = 1%nat) by (unfold es_rank; rewrite St; auto).
  pose proof (q_read_split _ _ _ a Hp Ha Hne Hr) as Q. unfold es_read_index at 1.
  destruct (q_read_varint (r_prefix (d_rs d)) (r_left (d_rs d)) (r_shift (d_rs d)) a)
    as [[[[l s] rest] [|]]|e|] eqn:E; [| | |contradiction].
  - destruct Q as (Hl & Hb & Hlen & Q).
    assert (ESb : forall b, es_step d (a ++ b) = es_read_index d (a ++ b)) by (intros; apply ES).
    set (r := rs_set_int (d_rs d) l s) in *.
    destruct (d_op d) eqn:Op; [|contradiction| |].
    + pose proof (rel2abs_cases (d_ctx d) r ltac:(cbn; lia)) as R.
      destruct (rel2abs (d_ctx d) r) as [r'|e|] eqn:RE; [| |contradiction].
      * destruct R as (R1 & R2 & R3 & R4). split; [|split; [auto|split; [unfold measure; rewrite RK; cbn; lia|split; [discriminate|]]]].
        -- split; [exact W|]. cbn. split; [auto|]. unfold op_val. cbn. rewrite Op. exact R1.
        -- intros b Hbb. rewrite ESb. unfold es_read_index. rewrite Q. fold r. rewrite Op, RE. auto.
      * apply es_err_ok; [auto|]. intros b Hbb. rewrite ESb. unfold es_read_index. rewrite Q. fold r. rewrite Op, RE. auto.
    + destruct Hop as [Hp5 Hd]. pose proof (rel2abs_cases (d_ctx d) r ltac:(cbn; lia)) as R.
      destruct (rel2abs (d_ctx d) r) as [r'|e|] eqn:RE; [| |contradiction].
      * destruct R as (R1 & R2 & R3 & R4).
        pose proof (dec_duplicate_add_cases (d_ctx d) r' W R1 ltac:(rewrite R2; exact Hd)) as D.
        destruct (dec_duplicate_add (d_ctx d) r') as [c|e|] eqn:DE; [| |contradiction].
        -- apply es_done_ok; [tauto|auto|lia|]. intros b Hbb. rewrite ESb. unfold es_read_index. rewrite Q. fold r. rewrite Op, RE, DE. auto.
        -- apply es_err_ok; [auto|]. intros b Hbb. rewrite ESb. unfold es_read_index. rewrite Q. fold r. rewrite Op, RE, DE. auto.
      * apply es_err_ok; [auto|]. intros b Hbb. rewrite ESb. unfold es_read_index. rewrite Q. fold r. rewrite Op, RE. auto.
    + pose proof (dec_set_cap_cases (d_ctx d) l W ltac:(lia)) as D.
      destruct (dec_set_cap (d_ctx d) l) as [c|e|] eqn:DE; [| |contradiction].
      * apply es_done_ok; [tauto|auto|lia|]. intros b Hbb. rewrite ESb. unfold es_read_index. rewrite Q. rewrite Op, DE. auto.
      * apply es_err_ok; [auto|]. intros b Hbb. rewrite ESb. unfold es_read_index. rewrite Q. rewrite Op, DE. auto.
  - destruct Q as (-> & Hr' & Hl & Q). split; [split; [exact W|cbn; split; [exact Hr'|destruct (d_op d); auto]]|].
    intros b Hb Hb'. rewrite ES. unfold es_read_index. rewrite Q by auto. 
    unfold es_step. cbn [d_state d_set]. unfold es_read_index. cbn [d_rs d_set rs_set_int r_prefix r_left r_shift d_op d_ctx].
    destruct (q_read_varint (r_prefix (d_rs d)) l s b) as [[[[l2 s2] rest2] [|]]|e|]; auto.
    all: unfold rs_set_int; cbn [r_huff r_name r_ncap r_value r_vcap r_prefix r_absidx r_never r_dynamic r_hufenc];
         destruct (d_op d); cbn [sev app]; auto.
    all: try (destruct (rel2abs _ _) as [r'|e|]; cbn; auto; fail).
    + destruct (rel2abs _ _) as [r'|e|]; cbn [app sev]; auto.
      destruct (dec_duplicate_add _ _); auto.
    + destruct (dec_set_cap _ _); auto.
  - destruct Q as [-> Q]. apply es_err_ok; [auto|]. intros b Hb. rewrite ES. unfold es_read_index. rewrite Q. auto.
Qed.

Lemma es_read_namelen_ok d r a : ctx_ok (d_ctx d) -> bytes a -> a <> [] -> d_op d = OpInsert ->
  r_prefix r = 5 -> rs_ok (r_left r) (r_shift r) -> (1 <= es_rank d)%nat ->
  (forall b, bytes b -> es_step d (a ++ b) = es_read_namelen d r (a ++ b)) ->
  es_ok d a (es_read_namelen d r a).
Proof.
  intros W Ha Hne Op Hp Hr RK ES.
  pose proof (q_read_split (r_prefix r) _ _ a ltac:(lia) Ha Hne Hr) as Q. unfold es_read_namelen at 1.
  destruct (q_read_varint (r_prefix r) (r_left r) (r_shift r) a)
    as [[[[l s] rest] [|]]|e|] eqn:E; [| | |contradiction].
  - destruct Q as (Hl & Hb & Hlen & Q). destruct (l >? MAX_NAMELEN) eqn:G.
    + apply es_err_ok; [auto|]. intros b Hbb. rewrite ES by auto. unfold es_read_namelen. rewrite Q, G. auto.
    + split; [|split; [auto|split; [|split; [discriminate|]]]].
      * split; [exact W|].
        pose proof (str_ok_init (r_hufenc r) l (r_huff r) ltac:(lia)) as SI.
        destruct (r_hufenc r) eqn:HE; cbn; rewrite HE; cbn; (split; [exact Op|exact SI]).
      * unfold measure. destruct (r_hufenc r); cbn; lia.
      * intros b Hbb. rewrite ES by auto. unfold es_read_namelen. rewrite Q, G. auto.
  - destruct Q as (-> & Hr' & Hl & Q). split; [split; [exact W|cbn; split; [exact Op|split; [exact Hp|exact Hr']]]|].
    intros b Hb Hb'. rewrite ES by auto. unfold es_read_namelen. rewrite Q by auto.
    unfold es_step. cbn [d_state d_set]. unfold es_read_namelen. cbn [d_rs d_set rs_set_int r_prefix r_left r_shift d_op d_ctx].
    destruct (q_read_varint (r_prefix r) l s b) as [[[[l2 s2] rest2] [|]]|e|]; auto.
    destruct (l2 >? MAX_NAMELEN); auto.
  - destruct Q as [-> Q]. apply es_err_ok; [auto|]. intros b Hb. rewrite ES by auto. unfold es_read_namelen. rewrite Q. auto.
Qed.

Lemma es_read_valuelen_ok d r a : ctx_ok (d_ctx d) -> bytes a -> a <> [] ->
  op_val (d_set d (d_state d) r) ->
  r_prefix r = 7 -> rs_ok (r_left r) (r_shift r) -> (1 <= es_rank d)%nat ->
  (forall b, bytes b -> es_step d (a ++ b) = es_read_valuelen d r (a ++ b)) ->
  es_ok d a (es_read_valuelen d r a).
Proof.
  intros W Ha Hne Op Hp Hr RK ES.
  pose proof (q_read_split (r_prefix r) _ _ a ltac:(lia) Ha Hne Hr) as Q. unfold es_read_valuelen at 1.
  destruct (q_read_varint (r_prefix r) (r_left r) (r_shift r) a)
    as [[[[l s] rest] [|]]|e|] eqn:E; [| | |contradiction].
  - destruct Q as (Hl & Hb & Hlen & Q). destruct (l >? MAX_VALUELEN) eqn:G.
    + apply es_err_ok; [auto|]. intros b Hbb. rewrite ES by auto. unfold es_read_valuelen. rewrite Q, G. auto.
    + split; [|split; [auto|split; [|split]]].
      * split; [exact W|].
        pose proof (str_ok_init (r_hufenc r) l (r_huff r) ltac:(lia)) as SI.
        destruct (r_hufenc r) eqn:HE; cbn; rewrite HE; cbn; (split; [exact SI|exact Op]).
      * unfold measure. destruct (r_hufenc r); cbn; lia.
      * intros _. unfold es_ce. destruct (r_hufenc r); cbn; auto.
      * intros b Hbb. rewrite ES by auto. unfold es_read_valuelen. rewrite Q, G. auto.
  - destruct Q as (-> & Hr' & Hl & Q). split; [split; [exact W|cbn; split; [exact Hp|split; [exact Hr'|exact Op]]]|].
    intros b Hb Hb'. rewrite ES by auto. unfold es_read_valuelen. rewrite Q by auto.
    unfold es_step. cbn [d_state d_set]. unfold es_read_valuelen. cbn [d_rs d_set rs_set_int r_prefix r_left r_shift d_op d_ctx].
    destruct (q_read_varint (r_prefix r) l s b) as [[[[l2 s2] rest2] [|]]|e|]; auto.
    destruct (l2 >? MAX_VALUELEN); auto.
  - destruct Q as [-> Q]. apply es_err_ok; [auto|]. intros b Hb. rewrite ES by auto. unfold es_read_valuelen. rewrite Q. auto.
Qed.

Lemma es_read_name_ok (huf : bool) d a : es_inv d -> bytes a -> a <> [] ->
  d_state d = (if huf then EsReadNameHuffman else EsReadName) -> es_ok d a (es_read_name huf d a).
Proof.
  intros [W I] Ha Hne St.
  assert (I' : d_op d = OpInsert /\ str_ok huf (r_left (d_rs d)) (r_huff (d_rs d)) (r_name (d_rs d)) (r_ncap (d_rs d))).
  { cbv zeta in I. rewrite St in I. destruct huf; exact I. }
  destruct I' as [Op Hs]. clear I.
  assert (ES : forall x, es_step d x = es_read_name huf d x)
    by (intros; unfold es_step; rewrite St; destruct huf; auto).
  assert (RK : es_rank d = 3%nat) by (unfold es_rank; rewrite St; destruct huf; auto).
  pose proof (read_str_split huf _ _ _ _ a Ha Hs) as Q. unfold es_read_name at 1.
  destruct (read_str huf (r_left (d_rs d)) (r_huff (d_rs d)) (r_name (d_rs d)) (r_ncap (d_rs d)) a)
    as [[[[lft fs] name] rest]|e|] eqn:E; [| |contradiction].
  - destruct (Z.eqb_spec lft 0) as [->|Hl]; cbn [negb].
    + destruct Q as (Hb & -> & Hle & Q). split; [|split; [apply bytes_skipn; auto|split; [|split; [discriminate|]]]].
      * split; [exact W|]. cbn. split; [auto|]. unfold op_val. cbn. rewrite Op. exact Hb.
      * unfold measure. rewrite RK. cbn. rewrite skipn_length. lia.
      * intros b Hbb. rewrite ES. unfold es_read_name. rewrite Q by auto. cbn [negb Z.eqb]. auto.
    + destruct Q as (-> & Hs' & Hl' & Q). split.
      * split; [exact W|]. cbn. rewrite St. destruct huf; (split; [exact Op|exact Hs']).
      * intros b Hbb _. rewrite !ES. unfold es_step. cbn [d_state d_set]. rewrite St.
        assert (ES2 : es_read_name huf d (a ++ b) = sev [] (es_read_name huf
            (d_set d (d_state d) (rs_set_name (d_rs d) lft fs name)) b)).
        { unfold es_read_name. rewrite Q by auto.
          cbn [d_rs d_set rs_set_name r_left r_huff r_name r_ncap d_state].
          destruct (read_str huf lft fs name (r_ncap (d_rs d)) b) as [[[[l2 f2] n2] rest2]|e|]; auto.
          destruct (negb (l2 =? 0)); auto. }
        rewrite ES2, St. destruct huf; reflexivity.
  - apply es_err_ok; [auto|]. intros b Hb. destruct (Q b Hb) as [e' Q']. rewrite ES. unfold es_read_name. rewrite Q'. auto.
Qed.

Lemma es_value_add d r : ctx_ok (d_ctx d) -> op_val (d_set d (d_state d) r) -> bytes (r_value r) ->
  match (match d_op d with
         | OpInsertIndexed => dec_indexed_add (d_ctx d) r
         | OpInsert => dec_literal_add (d_ctx d) r
         | _ => Abort
         end) with
  | Ok c' => ctx_ok c' /\ hard_max c' = hard_max (d_ctx d) /\ bad c' = bad (d_ctx d)
  | Err e => e = ERR_QPACK_ENCODER_STREAM_ERROR
  | Abort => False
  end.
Proof.
  intros W Op Hv. unfold op_val in Op. cbn in Op. destruct (d_op d); try contradiction.
  - apply dec_indexed_add_cases; auto.
  - apply dec_add_cases; auto.
Qed.

Lemma es_read_value_ok (huf : bool) d a : es_inv d -> bytes a ->
  d_state d = (if huf then EsReadValueHuffman else EsReadValue) -> es_ok d a (es_read_value huf d a).
Proof.
  intros [W I] Ha St.
  assert (I' : str_ok huf (r_left (d_rs d)) (r_huff (d_rs d)) (r_value (d_rs d)) (r_vcap (d_rs d)) /\ op_val d).
  { cbv zeta in I. rewrite St in I. destruct huf; exact I. }
  destruct I' as [Hs Op]. clear I.
  assert (ES : forall x, es_step d x = es_read_value huf d x)
    by (intros; unfold es_step; rewrite St; destruct huf; auto).
  assert (RK : es_rank d = 6%nat) by (unfold es_rank; rewrite St; destruct huf; auto).
  pose proof (read_str_split huf _ _ _ _ a Ha Hs) as Q. unfold es_read_value at 1.
  destruct (read_str huf (r_left (d_rs d)) (r_huff (d_rs d)) (r_value (d_rs d)) (r_vcap (d_rs d)) a)
    as [[[[lft fs] value] rest]|e|] eqn:E; [| |contradiction].
  - destruct (Z.eqb_spec lft 0) as [->|Hl]; cbn [negb]; cbv zeta.
    + destruct Q as (Hb & -> & Hle & Q).
      pose proof (es_value_add d (rs_set_value (d_rs d) 0 fs value) W Op Hb) as A.
      set (add := match d_op d with OpInsertIndexed => dec_indexed_add (d_ctx d) (rs_set_value (d_rs d) 0 fs value)
         | OpInsert => dec_literal_add (d_ctx d) (rs_set_value (d_rs d) 0 fs value) | _ => @Abort ctx end) in *.
      assert (ESb : forall b, bytes b -> es_step d (a ++ b) = match add with
         | Ok c => es_done d c (skipn (Z.to_nat (r_left (d_rs d))) a ++ b)
         | Err e => es_fail e d | Abort => SAbort end).
      { intros b Hbb. rewrite ES. unfold es_read_value. rewrite Q by auto. cbn [negb Z.eqb]. fold add. auto. }
      destruct add as [c|e|]; [| |contradiction].
      * apply es_done_ok; [tauto|apply bytes_skipn; auto|rewrite RK, skipn_length; lia|auto].
      * apply es_err_ok; auto.
    + destruct Q as (-> & Hs' & Hl' & Q). split.
      * split; [exact W|]. cbn. rewrite St. destruct huf; (split; [exact Hs'|exact Op]).
      * intros b Hbb _. rewrite !ES. unfold es_step. cbn [d_state d_set]. rewrite St.
        assert (ES2 : es_read_value huf d (a ++ b) = sev [] (es_read_value huf
            (d_set d (d_state d) (rs_set_value (d_rs d) lft fs value)) b)).
        { unfold es_read_value. rewrite Q by auto.
          cbn [d_rs d_set rs_set_value r_left r_huff r_value r_vcap d_state d_op d_ctx].
          destruct (read_str huf lft fs value (r_vcap (d_rs d)) b) as [[[[l2 f2] n2] rest2]|e|]; auto.
          destruct (negb (l2 =? 0)); auto.
          unfold rs_set_value. cbn [r_name r_ncap r_vcap r_prefix r_shift r_absidx r_never r_dynamic r_hufenc].
          destruct (d_op d); auto; [destruct (dec_indexed_add _ _)|destruct (dec_literal_add _ _)]; auto. }
        rewrite ES2, St. destruct huf; reflexivity.
  - apply es_err_ok; [auto|]. intros b Hb. destruct (Q b Hb) as [e' Q']. rewrite ES. unfold es_read_value. rewrite Q'. auto.
Qed.

Lemma es_step_ok d a : es_inv d -> bytes a -> runnable es_ce d a -> es_ok d a (es_step d a).
Proof.
  intros Hi Ha R.
  assert (Hne : a <> [] \/ es_ce d) by exact R. clear R.
  unfold es_step at 1. destruct (d_state d) eqn:St.
  1-8: assert (Hn : a <> []) by (destruct Hne as [|[C|C]]; [auto|congruence..]).
  - destruct a as [|x a]; [congruence|]. pose proof Hi as [W I]. cbv zeta in I. rewrite St in I.
    assert (G : forall op prefix dyn st,
      (forall b, bytes b -> es_step d ((x :: a) ++ b) = SGo (d_set_op d st op (rs_set_op (d_rs d) prefix (r_never (d_rs d)) dyn)) ((x :: a) ++ b) false []) ->
      (es_inv (d_set_op d st op (rs_set_op (d_rs d) prefix (r_never (d_rs d)) dyn))) ->
      (es_rank (d_set_op d st op (rs_set_op (d_rs d) prefix (r_never (d_rs d)) dyn)) < 5)%nat ->
      es_ok d (x :: a) (SGo (d_set_op d st op (rs_set_op (d_rs d) prefix (r_never (d_rs d)) dyn)) (x :: a) false [])).
    { intros op prefix dyn st G1 G2 G3. split; [auto|]. split; [auto|]. split; [|split; [discriminate|auto]].
      unfold measure. replace (es_rank d) with 5%nat by (unfold es_rank; rewrite St; auto). lia. }
    assert (R0 : rs_ok 0 0) by apply rs_ok_0.
    destruct (128 <=? Z.land x 224) eqn:E1; [|destruct ((Z.land x 224 =? 64) || (Z.land x 224 =? 96)) eqn:E2; [|destruct (Z.land x 224 =? 32) eqn:E3]].
    + apply G.
      * intros b Hb. unfold es_step. rewrite St. cbn [app]. rewrite E1. auto.
      * split; [exact W|]. rewrite I. cbn. split; [exact R0|auto].
      * cbn; lia.
    + apply G.
      * intros b Hb. unfold es_step. rewrite St. cbn [app]. rewrite E1, E2. auto.
      * split; [exact W|]. rewrite I. cbn. auto.
      * cbn; lia.
    + apply (G OpSetCap 5 (r_dynamic (d_rs d)) EsReadIndex).
      * intros b Hb. unfold es_step. rewrite St. cbn [app]. rewrite E1, E2, E3. auto.
      * split; [exact W|]. rewrite I. cbn. split; [exact R0|auto].
      * cbn; lia.
    + apply G.
      * intros b Hb. unfold es_step. rewrite St. cbn [app]. rewrite E1, E2, E3. auto.
      * split; [exact W|]. rewrite I. cbn. split; [exact R0|auto].
      * cbn; lia.
  - apply es_read_index_ok; auto.
  - destruct a as [|x a]; [congruence|]. pose proof Hi as [W I]. cbv zeta in I. rewrite St in I. destruct I as [Op Hp].
    apply es_read_namelen_ok; auto.
    + apply rs_ok_0.
    + unfold es_rank; rewrite St; lia.
    + intros b Hb. unfold es_step. rewrite St. cbn [app]. auto.
  - pose proof Hi as [W I]. cbv zeta in I. rewrite St in I. destruct I as (Op & Hp & Hr).
    apply es_read_namelen_ok; auto.
    + unfold es_rank; rewrite St; lia.
    + intros b Hb. unfold es_step. rewrite St. auto.
  - apply es_read_name_ok; auto.
  - apply es_read_name_ok; auto.
  - destruct a as [|x a]; [congruence|]. pose proof Hi as [W I]. cbv zeta in I. rewrite St in I. destruct I as [Hp Op].
    apply es_read_valuelen_ok; auto.
    + apply rs_ok_0.
    + unfold es_rank; rewrite St; lia.
    + intros b Hb. unfold es_step. rewrite St. cbn [app]. auto.
  - pose proof Hi as [W I]. cbv zeta in I. rewrite St in I. destruct I as (Hp & Hr & Op).
    apply es_read_valuelen_ok; auto.
    + unfold es_rank; rewrite St; lia.
    + intros b Hb. unfold es_step. rewrite St. auto.
  - apply es_read_value_ok; auto.
  - apply es_read_value_ok; auto.
Qed.
