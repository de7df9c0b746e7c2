(* The encoder stream reader against RFC 9204 4.3. *)
From Verif Require Import Base BaseLemmas QpackIntModel QpackIntSpec QpackIntProofs HuffModel HuffSpec HuffProofs Tables QpackTabModel QpackTabSpec QpackTabProofs
  QpackDynSpec QpackDynProofs Chunk QpackDecModel QpackReadProofs QpackDecProofs QpackWireProofs RfcQpackSpec RfcPrim Props_QpackTab.
Open Scope Z_scope.

(* ---------------- the table ---------------- *)
Record tmatch (max : Z) (c : ctx) (t : table) : Prop := {
  tm_ok : ctx_ok c;
  tm_live : contents c = t_live t;
  tm_next : next_absidx c = zlen (t_all t);
  tm_cap : max_cap c = t_cap t;
  tm_hard : hard_max c = max;
  tm_old : exists old, rev (t_all t) = t_live t ++ old }.
Lemma tmatch_init hard blocked : 0 <= hard -> tmatch hard (ctx_init hard blocked) t_start.
Proof. intros H. constructor; try reflexivity; [apply ctx_ok_init; exact H|exists []; reflexivity]. Qed.
Lemma rfc_evict_prefix t : forall cap, exists x, t = rfc_evict t cap ++ x.
Proof.
  induction t as [|f t IH]; intros cap; cbn; [exists []; reflexivity|]. destruct (fld_size f <=? cap); [|exists (f :: t); reflexivity].
  destruct (IH (cap - fld_size f)) as (x & E). exists x. cbn. rewrite <- E. reflexivity.
Qed.
Lemma tm_insert max c t n v : tmatch max c t -> bytes n -> bytes v ->
  match t_insert t (n, v) with
  | Some t' => exists c', dec_add c n v (lookup_token n) = Ok c' /\ tmatch max c' t' /\ bad c' = bad c
  | None => dec_add c n v (lookup_token n) = Err ERR_QPACK_ENCODER_STREAM_ERROR
  end.
Proof.
  intros [O L N C H (old & D)] Bn Bv. pose proof (dec_add_spec c n v O Bn Bv) as A. unfold t_insert, rfc_insert. rewrite <- C.
  destruct (Z.gtb_spec (fld_size (n, v)) (max_cap c)) as [G|G]; destruct (Z.leb_spec (fld_size (n, v)) (max_cap c)) as [G2|G2]; try lia; [exact A|].
  destruct A as (c' & A & O' & T' & N' & C' & H' & B' & _). exists c'. split; [exact A|]. split; [|exact B'].
  constructor; cbn [t_all t_live t_cap].
  - exact O'.
  - unfold contents. rewrite T'. cbn [map]. rewrite fit_rfc. fold (contents c). rewrite L. reflexivity.
  - rewrite N', N, zlen_app. reflexivity.
  - exact C'.
  - congruence.
  - rewrite rev_app_distr. cbn [rev app]. destruct (rfc_evict_prefix (t_live t) (max_cap c - fld_size (n, v))) as (x & E).
    exists (x ++ old). rewrite D, E at 1. rewrite <- app_assoc. reflexivity.
Qed.
Lemma tm_setcap max c t n : tmatch max c t -> 0 <= n ->
  match carry_out max t (SetCapacity n) with
  | Some t' => exists c', dec_set_cap c n = Ok c' /\ tmatch max c' t' /\ bad c' = bad c
  | None => exists e, dec_set_cap c n = Err e
  end.
Proof.
  intros [O L N C H (old & D)] Hn. pose proof (dec_set_cap_spec c n O Hn) as A. unfold carry_out. rewrite <- H.
  destruct (Z.gtb_spec n (hard_max c)) as [G|G]; destruct (Z.leb_spec n (hard_max c)) as [G2|G2]; try lia; [eexists; exact A|].
  destruct A as (c' & A & O' & T' & C' & N' & H' & B' & _). exists c'. split; [exact A|]. split; [|exact B'].
  constructor; cbn [t_all t_live t_cap].
  - exact O'.
  - unfold contents. rewrite T', fit_rfc. fold (contents c). rewrite L. reflexivity.
  - congruence.
  - exact C'.
  - exact H'.
  - destruct (rfc_evict_prefix (t_live t) n) as (x & E). exists (x ++ old). rewrite D, E at 1. rewrite <- app_assoc. reflexivity.
Qed.
Lemma static_get i : 0 <= i -> match stable_get i with
  | Some (n, v, tk) => static i = Some (n, v) /\ tk = lookup_token n /\ bytes n /\ bytes v
  | None => static i = None end.
Proof.
  intros Hi. unfold static. rewrite (proj2 (Z.ltb_ge _ _) Hi). rewrite <- C08_static_table_is_rfc, nth_error_map.
  destruct (stable_get i) as [[[n v] tk]|] eqn:E.
  - pose proof (stable_bytes _ _ _ _ E) as B. pose proof (C08_row_token _ _ _ _ E) as K.
    unfold stable_get in E. rewrite (proj2 (Z.ltb_ge _ _) Hi) in E. rewrite E. cbn. intuition.
  - unfold stable_get in E. rewrite (proj2 (Z.ltb_ge _ _) Hi) in E. rewrite E. reflexivity.
Qed.
Lemma tm_relative max c t k : tmatch max c t -> 0 <= k ->
  match relative t k with
  | Some f => exists e, dtable_get c (next_absidx c - k - 1) = Some e /\ kv e = f /\ e_token e = lookup_token (e_name e) /\ bytes (e_name e) /\ bytes (e_value e) /\
      k < next_absidx c /\ k < zlen (dtable c)
  | None => zlen (dtable c) <= k
  end.
Proof.
  intros M Hk. unfold relative. rewrite (proj2 (Z.ltb_ge _ _) Hk). rewrite <- (tm_live _ _ _ M). unfold contents. rewrite nth_error_map.
  destruct (nth_error (dtable c) (Z.to_nat k)) as [e|] eqn:E; cbn [option_map].
  - assert (L : k < zlen (dtable c)). { assert (X : nth_error (dtable c) (Z.to_nat k) <> None) by congruence. apply nth_error_Some in X. unfold zlen. lia. }
    pose proof (proj1 (tm_ok _ _ _ M)) as W. pose proof (tab_at_len _ _ _ (wf_tab _ W)) as TL.
    exists e. assert (G : dtable_get c (next_absidx c - k - 1) = Some e).
    { unfold dtable_get. replace (next_absidx c - (next_absidx c - k - 1) - 1) with k by lia.
      rewrite (proj2 (Z.gtb_lt _ _)), (proj2 (Z.ltb_lt _ _)) by lia. exact E. }
    destruct (dtable_get_inv _ _ _ W G) as (_ & _ & _ & T1 & T2 & T3). repeat split; auto; lia.
  - apply nth_error_None in E. unfold zlen. lia.
Qed.

(* ---------------- turns ---------------- *)
Definition waits (d : dec) (p : list Z) : Prop :=
  exists d', es_run d p = ROk d' [] /\ d_ctx d' = d_ctx d /\ d_state d' <> EsOpcode.
Definition fails (d : dec) (p : list Z) : Prop := exists e d', es_run d p = RErr e d' [].

Lemma run1 d p : es_inv d -> bytes p -> p <> [] ->
  es_run d p = turn es_step d p (run es_step 8 es_rank).
Proof. intros I B H. unfold es_run. apply es_turn; auto. discriminate. Qed.
Lemma rev_nil2 A B (r : @rres A B) : rev_ [] r = r. Proof. destruct r; reflexivity. Qed.

Lemma es_value_cases d p : es_inv d -> d_state d = EsCheckValueHuffman -> bytes p ->
  (waits d p /\ forall v r, ~ a_value p v r) \/
  (fails d p /\ forall x v r, bytes x -> ~ a_value (p ++ x) v r) \/
  (exists v r rr, a_value p v r /\ bytes v /\ bytes r /\
     r_value rr = v /\ r_name rr = r_name (d_rs d) /\ r_absidx rr = r_absidx (d_rs d) /\ r_dynamic rr = r_dynamic (d_rs d) /\
     (forall c, es_add d rr = Ok c -> es_run d p = es_run (d_done d c) r) /\
     (forall e, es_add d rr = Err e -> fails d p)).
Proof.
  intros I St B. destruct p as [|b t].
  { left. split; [|intros v r; apply a_string_nil]. exists d. split; [reflexivity|]. split; [reflexivity|]. rewrite St. discriminate. }
  pose proof (run1 d (b :: t) I B ltac:(discriminate)) as R. unfold turn in R.
  assert (P7 : r_prefix (d_rs d) = 7) by (destruct I as [_ I]; rewrite St in I; apply I).
  assert (E1 : es_step d (b :: t) = es_read_valuelen d (rs_check_huffman (d_rs d) b) (b :: t)) by (unfold es_step; rewrite St; reflexivity).
  unfold es_read_valuelen in E1. cbn [rs_check_huffman r_prefix r_left r_shift r_hufenc] in E1. rewrite P7 in E1.
  pose proof (string_cases 7 65536 b t (r_huff (d_rs d)) ltac:(lia) B) as Q. cbv zeta in Q. fold a_value in Q.
  destruct (q_read_varint 7 0 0 (b :: t)) as [[[[n sh] rest] [|]]|e|].
  - destruct Q as (Br & Hn & _ & Q). change MAX_VALUELEN with 65536 in E1. destruct (n >? 65536).
    + right; left. split; [|exact Q]. rewrite E1 in R. unfold es_fail in R. eexists _, _. exact R.
    + set (huf := negb (Z.land b (2 ^ 7) =? 0)) in *. rewrite E1 in R.
      pose proof (es_inv_go _ _ _ _ _ _ I B ltac:(discriminate) E1) as I2.
      match type of E1 with _ = SGo ?x _ _ _ => set (d2 := x) in * end.
      cbn [rev_] in R. rewrite rev_nil2 in R. rewrite es_turn in R; [|exact I2|exact Br| |right; reflexivity].
      2:{ intros _. unfold es_ce, d2, d_set. cbn [d_state]. destruct huf; auto. }
      unfold turn in R.
      assert (E2 : es_step d2 rest = es_read_value huf d2 rest).
      { unfold es_step, d2. cbn [d_set d_state]. destruct huf; reflexivity. }
      rewrite E2 in R. unfold es_read_value in R.
      assert (F : read_str huf (r_left (d_rs d2)) (r_huff (d_rs d2)) (r_value (d_rs d2)) (r_vcap (d_rs d2)) rest =
                  read_str huf n (if huf then huff_init else r_huff (d_rs d)) [] (if huf then n * 2 else n) rest).
      { unfold d2. cbn [d_set d_rs rs_alloc_value rs_set_int rs_check_huffman r_left r_huff r_value r_vcap r_hufenc r_prefix]. rewrite P7. fold huf. reflexivity. }
      rewrite F in R. clear F. destruct (read_str huf n _ [] _ rest) as [[[[lft fs'] s] r]|e|].
      * destruct (Z.eqb_spec lft 0) as [->|Hl]; cbn [negb] in R.
        -- destruct Q as (A & Bs & Brr). right; right. exists s, r, (rs_set_value (d_rs d2) 0 fs' s).
           split; [exact A|]. split; [exact Bs|]. split; [exact Brr|]. do 4 (split; [reflexivity|]).
           fold (es_add d2 (rs_set_value (d_rs d2) 0 fs' s)) in R. change (es_add d2) with (es_add d) in R. split.
           ++ intros c Ec. rewrite Ec in R. unfold es_done in R. cbn [rev_] in R. rewrite rev_nil2 in R. exact R.
           ++ intros e Ee. rewrite Ee in R. unfold es_fail in R. eexists _, _. exact R.
        -- left. split; [|exact Q]. eexists. split; [exact R|]. split; [reflexivity|]. unfold d2. cbn [d_set d_state]. destruct huf; discriminate.
      * right; left. split; [|exact Q]. unfold es_fail in R. eexists _, _. exact R.
      * destruct Q.
  - left. split; [|exact Q]. rewrite E1 in R. eexists. split; [exact R|]. split; [reflexivity|]. discriminate.
  - right; left. split; [|exact Q]. rewrite E1 in R. unfold es_fail in R. eexists _, _. exact R.
  - destruct Q.
Qed.

Lemma name_empty N max p n sh s r : 1 <= N <= 8 -> bytes p -> q_read_varint N 0 0 p = Ok (n, sh, [], true) -> a_string N max p s r -> r = [].
Proof.
  intros HN B Q (b & t & raw & E & A & _). assert (X : an_int N p n []) by (apply (proj1 (q_read_varint_rfc N p n [] HN B)); eauto).
  destruct (an_int_fun _ _ _ _ _ _ X A) as (_ & E2). destruct raw; [exact (eq_sym E2)|discriminate].
Qed.
Lemma es_name_cases d p : es_inv d -> d_state d = EsCheckNameHuffman -> bytes p -> p <> [] ->
  (waits d p /\ forall n r, a_name 5 p n r -> r = []) \/
  (fails d p /\ forall x n r, bytes x -> ~ a_name 5 (p ++ x) n r) \/
  (exists n r d', a_name 5 p n r /\ bytes n /\ bytes r /\ es_inv d' /\ d_state d' = EsCheckValueHuffman /\ d_ctx d' = d_ctx d /\ d_op d' = d_op d /\
     r_name (d_rs d') = n /\ d_dbuf d' = d_dbuf d /\ d_written d' = d_written d /\ d_maxconc d' = d_maxconc d /\ d_unint d' = d_unint d /\
     es_run d p = es_run d' r).
Proof.
  intros I St B Hne. destruct p as [|b t]; [congruence|]. clear Hne.
  pose proof (run1 d (b :: t) I B ltac:(discriminate)) as R. unfold turn in R.
  assert (P5 : r_prefix (d_rs d) = 5) by (destruct I as [_ I]; rewrite St in I; apply I).
  assert (E1 : es_step d (b :: t) = es_read_namelen d (rs_check_huffman (d_rs d) b) (b :: t)) by (unfold es_step; rewrite St; reflexivity).
  unfold es_read_namelen in E1. cbn [rs_check_huffman r_prefix r_left r_shift r_hufenc] in E1. rewrite P5 in E1.
  pose proof (string_cases 5 256 b t (r_huff (d_rs d)) ltac:(lia) B) as Q. cbv zeta in Q. fold (a_name 5) in Q.
  pose proof (fun n sh s r => name_empty 5 256 (b :: t) n sh s r ltac:(lia) B) as NE.
  destruct (q_read_varint 5 0 0 (b :: t)) as [[[[n sh] rest] [|]]|e|].
  - destruct Q as (Br & Hn & _ & Q). change MAX_NAMELEN with 256 in E1. destruct (n >? 256).
    + right; left. split; [|exact Q]. rewrite E1 in R. unfold es_fail in R. eexists _, _. exact R.
    + set (huf := negb (Z.land b (2 ^ 5) =? 0)) in *. rewrite E1 in R.
      pose proof (es_inv_go _ _ _ _ _ _ I B ltac:(discriminate) E1) as I2.
      match type of E1 with _ = SGo ?x _ _ _ => set (d2 := x) in * end.
      rewrite rev_nil2 in R. destruct rest as [|b2 t2].
      { left. split; [|intros s r; exact (NE n sh s r eq_refl)].
        eexists. split; [exact R|]. split; [reflexivity|]. unfold d2. cbn [d_set d_state]. destruct huf; discriminate. }
      set (rest := b2 :: t2) in *.
      assert (R2 : es_run d (b :: t) = turn es_step d2 rest (run es_step 8 es_rank)).
      { rewrite R. apply es_turn; [exact I2|exact Br|discriminate|left; discriminate]. }
      clear R. rename R2 into R. unfold turn in R.
      assert (E2 : es_step d2 rest = es_read_name huf d2 rest).
      { unfold es_step, d2. cbn [d_set d_state]. destruct huf; reflexivity. }
      pose proof (es_inv_go d2 rest) as IG. rewrite E2 in R, IG. unfold es_read_name in R, IG.
      assert (F : read_str huf (r_left (d_rs d2)) (r_huff (d_rs d2)) (r_name (d_rs d2)) (r_ncap (d_rs d2)) rest =
                  read_str huf n (if huf then huff_init else r_huff (d_rs d)) [] (if huf then n * 2 else n) rest).
      { unfold d2. cbn [d_set d_rs rs_alloc_name rs_set_int rs_check_huffman r_left r_huff r_name r_ncap r_hufenc r_prefix]. rewrite P5. fold huf. reflexivity. }
      rewrite F in R, IG. clear F. destruct (read_str huf n _ [] _ rest) as [[[[lft fs'] s] r]|e|].
      * destruct (Z.eqb_spec lft 0) as [->|Hl]; cbn [negb] in R, IG.
        -- destruct Q as (A & Bs & Brr). right; right. eexists s, r, _.
           split; [exact A|]. split; [exact Bs|]. split; [exact Brr|]. split; [exact (IG _ _ _ _ I2 Br ltac:(discriminate) eq_refl)|].
           do 8 (split; [reflexivity|]). rewrite R, rev_nil2. reflexivity.
        -- left. split; [|intros s' r' A; exfalso; exact (Q _ _ A)]. eexists. split; [exact R|]. split; [reflexivity|].
           unfold d2. cbn [d_set d_state]. destruct huf; discriminate.
      * right; left. split; [|exact Q]. unfold es_fail in R. eexists _, _. exact R.
      * destruct Q.
  - left. split; [|intros s r A; exfalso; exact (Q _ _ A)]. rewrite E1 in R. eexists. split; [exact R|]. split; [reflexivity|]. discriminate.
  - right; left. split; [|exact Q]. rewrite E1 in R. unfold es_fail in R. eexists _, _. exact R.
  - destruct Q.
Qed.

(* ---------------- what an instruction looks like ---------------- *)
Lemma ei_index b t i r : 128 <= b -> an_einstr (b :: t) i r ->
  exists k v m, i = (if 192 <=? b then InsertStatic k v else InsertDynamic k v) /\ an_int 6 (b :: t) k m /\ a_value m v r.
Proof.
  intros Hb (b' & t' & E & A). injection E as <- <-. destruct i as [n|k v|k v|n v|k]; try lia; destruct A as (Hr & m & A1 & A2); try lia;
    exists k, v, m; split; auto; destruct (Z.leb_spec 192 b); auto; lia.
Qed.
Lemma ei_literal b t i r : 64 <= b < 128 -> an_einstr (b :: t) i r ->
  exists n v m, i = InsertLiteral n v /\ a_name 5 (b :: t) n m /\ a_value m v r.
Proof.
  intros Hb (b' & t' & E & A). injection E as <- <-. destruct i as [n|k v|k v|n v|k]; try lia; destruct A as (Hr & m & A1 & A2); try lia.
  exists n, v, m; auto.
Qed.
Lemma ei_cap b t i r : 32 <= b < 64 -> an_einstr (b :: t) i r -> exists n, i = SetCapacity n /\ an_int 5 (b :: t) n r.
Proof.
  intros Hb (b' & t' & E & A). injection E as <- <-. destruct i as [n|k v|k v|n v|k]; try lia; destruct A as (Hr & A); try lia. eauto.
Qed.
Lemma ei_dup b t i r : b < 32 -> an_einstr (b :: t) i r -> exists n, i = Duplicate n /\ an_int 5 (b :: t) n r.
Proof.
  intros Hb (b' & t' & E & A). injection E as <- <-. destruct i as [n|k v|k v|n v|k]; try lia; destruct A as (Hr & A); try lia. eauto.
Qed.

Definition done (max : Z) (d : dec) (t : table) (p : list Z) : Prop :=
  exists i r t' d', an_einstr p i r /\ bytes r /\ carry_out max t i = Some t' /\
    es_inv d' /\ d_state d' = EsOpcode /\ tmatch max (d_ctx d') t' /\ es_run d p = es_run d' r.

(* the state in which the table is ready for the next instruction *)
Lemma es_inv_done d op c : ctx_ok c -> es_inv (d_at d op c).
Proof. intros H. split; [exact H|reflexivity]. Qed.
Lemma d_done_at d c : d_done d c = d_at d (d_op d) c. Proof. reflexivity. Qed.

Section Instr.
Variable max : Z.
Variable d : dec.
Variable t : table.
Hypothesis I : es_inv d.
Hypothesis St : d_state d = EsOpcode.
Hypothesis M : tmatch max (d_ctx d) t.

Lemma r_start : d_rs d = rs_reset.
Proof. destruct I as [_ X]. rewrite St in X. exact X. Qed.

(* a turn that only moves to another state *)
Lemma go1 p d' : bytes p -> p <> [] -> es_step d p = SGo d' p false [] -> es_run d p = es_run d' p /\ es_inv d'.
Proof.
  intros B Hne E. split; [exact (es_go _ _ _ _ I B Hne E)|]. exact (es_inv_go _ _ _ _ _ _ I B Hne E).
Qed.

Lemma instr_cap b u : bytes (b :: u) -> 32 <= b < 64 ->
  (waits d (b :: u) /\ unfinished (b :: u)) \/ (fails d (b :: u) /\ no_instruction max t (b :: u)) \/ done max d t (b :: u).
Proof.
  intros B Hb. set (p := b :: u).
  assert (E1 : es_step d p = SGo (d_set_op d EsReadIndex OpSetCap (rs_set_op rs_reset 5 false false)) p false []).
  { unfold es_step, p. rewrite St, r_start. destruct (es_bits b) as (X1 & X2 & X3 & _); [inversion B; auto|].
    rewrite X1, X2, X3. rewrite (proj2 (Z.leb_gt 128 b)), (proj2 (Z.leb_gt 64 b)), (proj2 (Z.leb_le 32 b)), (proj2 (Z.ltb_lt b 64)) by lia. reflexivity. }
  destruct (go1 p _ B ltac:(discriminate) E1) as (R & I2). set (d1 := d_set_op d _ _ _) in *.
  pose proof (run1 d1 p I2 B ltac:(discriminate)) as R1. unfold turn in R1.
  assert (E2 : es_step d1 p = es_read_index d1 p) by reflexivity. rewrite E2 in R1. unfold es_read_index in R1.
  change (r_prefix (d_rs d1)) with 5 in R1. change (r_left (d_rs d1)) with 0 in R1. change (r_shift (d_rs d1)) with 0 in R1.
  change (d_op d1) with OpSetCap in R1. cbv iota in R1. change (d_ctx d1) with (d_ctx d) in R1.
  pose proof (int_cases 5 p ltac:(lia) B ltac:(discriminate)) as Q.
  destruct (q_read_varint 5 0 0 p) as [[[[n sh] rest] [|]]|e|].
  - destruct Q as (A & Hn & Br & _). pose proof (tm_setcap max _ t n M Hn) as C.
    destruct (carry_out max t (SetCapacity n)) as [t'|] eqn:Ec.
    + destruct C as (c' & C & M' & _). rewrite C in R1. unfold es_done in R1. rewrite rev_nil2 in R1.
      right; right. exists (SetCapacity n), rest, t', (d_at d OpSetCap c'). split; [exists b, u; auto|]. split; [exact Br|]. split; [exact Ec|].
      split; [apply es_inv_done; exact (tm_ok _ _ _ M')|]. split; [reflexivity|]. split; [exact M'|]. rewrite R, R1. reflexivity.
    + destruct C as (e & C). rewrite C in R1. right; left. split; [unfold es_fail in R1; eexists _, _; rewrite R; exact R1|].
      intros x i r Bx A'. destruct (ei_cap b (u ++ x) i r Hb A') as (n' & -> & A2).
      destruct (an_int_fun _ _ _ _ _ _ (an_int_app _ _ _ _ x A) A2) as (<- & _). exact Ec.
  - left. split; [exists (d_set d1 EsReadIndex (rs_set_int (d_rs d1) n sh)); split; [rewrite R; exact R1|split; [reflexivity|discriminate]]|].
    intros i r A'. destruct (ei_cap b u i r Hb A') as (n' & -> & A2). exact (Q _ _ A2).
  - right; left. split; [unfold es_fail in R1; eexists _, _; rewrite R; exact R1|].
    intros x i r Bx A'. destruct (ei_cap b (u ++ x) i r Hb A') as (n' & -> & A2). exfalso. exact (Q x _ _ Bx A2).
  - destruct Q.
Qed.

Lemma instr_dup b u : bytes (b :: u) -> b < 32 ->
  (waits d (b :: u) /\ unfinished (b :: u)) \/ (fails d (b :: u) /\ no_instruction max t (b :: u)) \/ done max d t (b :: u).
Proof.
  intros B Hb. set (p := b :: u). assert (Hb0 : 0 <= b) by (inversion B as [|? ? X]; destruct X; lia).
  assert (E1 : es_step d p = SGo (d_set_op d EsReadIndex OpDuplicate (rs_set_op rs_reset 5 false true)) p false []).
  { unfold es_step, p. rewrite St, r_start. destruct (es_bits b) as (X1 & X2 & X3 & _); [inversion B; auto|].
    rewrite X1, X2, X3. rewrite (proj2 (Z.leb_gt 128 b)), (proj2 (Z.leb_gt 64 b)), (proj2 (Z.leb_gt 32 b)) by lia. reflexivity. }
  destruct (go1 p _ B ltac:(discriminate) E1) as (R & I2). set (d1 := d_set_op d _ _ _) in *.
  pose proof (run1 d1 p I2 B ltac:(discriminate)) as R1. unfold turn in R1.
  assert (E2 : es_step d1 p = es_read_index d1 p) by reflexivity. rewrite E2 in R1. unfold es_read_index in R1.
  change (r_prefix (d_rs d1)) with 5 in R1. change (r_left (d_rs d1)) with 0 in R1. change (r_shift (d_rs d1)) with 0 in R1.
  change (d_op d1) with OpDuplicate in R1. cbv iota in R1. change (d_ctx d1) with (d_ctx d) in R1.
  pose proof (int_cases 5 p ltac:(lia) B ltac:(discriminate)) as Q.
  destruct (q_read_varint 5 0 0 p) as [[[[n sh] rest] [|]]|e|].
  - destruct Q as (A & Hn & Br & _). pose proof (tm_relative max _ t n M Hn) as C.
    assert (U : forall x i r, an_einstr (p ++ x) i r -> i = Duplicate n).
    { intros x i r A'. destruct (ei_dup b (u ++ x) i r Hb A') as (n' & -> & A2).
      destruct (an_int_fun _ _ _ _ _ _ (an_int_app _ _ _ _ x A) A2) as (<- & _). reflexivity. }
    destruct (relative t n) as [f|] eqn:Er.
    + destruct C as (e & G & K & T & Bn & Bv & L1 & L2).
      rewrite (rel2abs_dyn (d_ctx d) _ n) in R1 by (auto; reflexivity).
      unfold dec_duplicate_add in R1. cbn [rs_set_absidx r_absidx] in R1. rewrite G in R1.
      pose proof (tm_insert max _ t (e_name e) (e_value e) M Bn Bv) as TI. rewrite T in R1.
      change (e_name e, e_value e) with (kv e) in TI. rewrite K in TI.
      assert (Ec : carry_out max t (Duplicate n) = t_insert t f) by (cbn; rewrite Er; reflexivity).
      destruct (t_insert t f) as [t'|] eqn:Et.
      * destruct TI as (c' & C & M' & _). rewrite C in R1. unfold es_done in R1. rewrite rev_nil2 in R1.
        right; right. exists (Duplicate n), rest, t', (d_at d OpDuplicate c'). split; [exists b, u; auto|]. split; [exact Br|]. split; [congruence|].
        split; [apply es_inv_done; exact (tm_ok _ _ _ M')|]. split; [reflexivity|]. split; [exact M'|]. rewrite R, R1. reflexivity.
      * rewrite TI in R1. right; left. split; [unfold es_fail in R1; eexists _, _; rewrite R; exact R1|].
        intros x i r Bx A'. rewrite (U _ _ _ A'). congruence.
    + right; left. split; [|intros x i r Bx A'; rewrite (U _ _ _ A'); cbn; rewrite Er; reflexivity].
      unfold rel2abs, validate_index in R1. cbn [rs_set_int rs_set_absidx r_dynamic r_left r_absidx d_rs] in R1.
      change (r_dynamic (d_rs d1)) with true in R1. cbn [andb] in R1.
      destruct (Z.ltb_spec (next_absidx (d_ctx d)) (n + 1)); [unfold es_fail in R1; eexists _, _; rewrite R; exact R1|].
      replace (next_absidx (d_ctx d) - (next_absidx (d_ctx d) - n - 1) - 1) with n in R1 by lia.
      rewrite (proj2 (Z.ltb_ge n _)) in R1 by lia. rewrite andb_false_r in R1. unfold es_fail in R1; eexists _, _; rewrite R; exact R1.
  - left. split; [exists (d_set d1 EsReadIndex (rs_set_int (d_rs d1) n sh)); split; [rewrite R; exact R1|split; [reflexivity|discriminate]]|].
    intros i r A'. destruct (ei_dup b u i r Hb A') as (n' & -> & A2). exact (Q _ _ A2).
  - right; left. split; [unfold es_fail in R1; eexists _, _; rewrite R; exact R1|].
    intros x i r Bx A'. destruct (ei_dup b (u ++ x) i r Hb A') as (n' & -> & A2). exfalso. exact (Q x _ _ Bx A2).
  - destruct Q.
Qed.

(* after the index or the name: the value, then the insertion of (name, value) *)
Lemma instr_value p d1 n0 rest : (forall v, bytes v -> bytes n0) ->
  es_inv d1 -> d_state d1 = EsCheckValueHuffman -> d_ctx d1 = d_ctx d -> bytes rest ->
  es_run d p = es_run d1 rest ->
  (forall rr, r_name rr = r_name (d_rs d1) -> r_absidx rr = r_absidx (d_rs d1) -> r_dynamic rr = r_dynamic (d_rs d1) ->
     es_add d1 rr = dec_add (d_ctx d) n0 (r_value rr) (lookup_token n0)) ->
  forall mk : list Z -> einstr, (forall v, carry_out max t (mk v) = t_insert t (n0, v)) ->
  (forall v r, a_value rest v r -> an_einstr p (mk v) r) ->
  (forall x i r, bytes x -> an_einstr (p ++ x) i r -> exists v, i = mk v /\ a_value (rest ++ x) v r) ->
  (waits d p /\ unfinished p) \/ (fails d p /\ no_instruction max t p) \/ done max d t p.
Proof.
  intros Bn0 I1 S1 C1 Br R Add mk Cm Am Um.
  assert (F : fails d1 rest -> fails d p) by (intros (e & d' & X); exists e, d'; congruence).
  destruct (es_value_cases d1 rest I1 S1 Br) as [[(d' & W1 & W2 & W3) N]|[[Fl N]|(v & r & rr & A & Bv & Brr & V1 & V2 & V3 & V4 & K1 & K2)]].
  - left. split; [exists d'; split; [congruence|split; [congruence|exact W3]]|]. intros i r A.
    destruct (Um [] i r) as (v & _ & A'); [constructor|rewrite app_nil_r; exact A|]. rewrite app_nil_r in A'. exact (N _ _ A').
  - right; left. split; [auto|]. intros x i r Bx A. destruct (Um x i r Bx A) as (v & _ & A'). exfalso. exact (N x v r Bx A').
  - rewrite (Add rr V2 V3 V4) in K1, K2. rewrite V1 in K1, K2.
    pose proof (tm_insert max _ t n0 v M (Bn0 v Bv) Bv) as TI. destruct (t_insert t (n0, v)) as [t'|] eqn:Et.
    + destruct TI as (c' & C & M' & _). right; right. exists (mk v), r, t', (d_done d1 c').
      split; [auto|]. split; [exact Brr|]. split; [rewrite Cm; exact Et|]. split; [apply es_inv_done; exact (tm_ok _ _ _ M')|].
      split; [reflexivity|]. split; [exact M'|]. rewrite R. exact (K1 _ C).
    + right; left. split; [apply F; exact (K2 _ TI)|]. intros x i r' Bx A'. destruct (Um x i r' Bx A') as (v' & -> & A2).
      rewrite Cm. replace v' with v; [exact Et|].
      assert (X : a_value (rest ++ x) v (r ++ x)) by (apply a_string_app; exact A).
      assert (Bp : bytes (rest ++ x)) by (apply bytes_app; auto). symmetry.
      destruct (a_string_fun _ _ _ _ _ _ _ Bp X A2) as (Ev & _). congruence.
Qed.

Lemma instr_literal b u : bytes (b :: u) -> 64 <= b < 128 ->
  (waits d (b :: u) /\ unfinished (b :: u)) \/ (fails d (b :: u) /\ no_instruction max t (b :: u)) \/ done max d t (b :: u).
Proof.
  intros B Hb. set (p := b :: u).
  assert (E1 : es_step d p = SGo (d_set_op d EsCheckNameHuffman OpInsert (rs_set_op rs_reset 5 false false)) p false []).
  { unfold es_step, p. rewrite St, r_start. destruct (es_bits b) as (X1 & X2 & X3 & _); [inversion B; auto|].
    rewrite X1, X2. rewrite (proj2 (Z.leb_gt 128 b)), (proj2 (Z.leb_le 64 b)), (proj2 (Z.ltb_lt b 128)) by lia. reflexivity. }
  destruct (go1 p _ B ltac:(discriminate) E1) as (R & I2). set (d1 := d_set_op d _ _ _) in *.
  destruct (es_name_cases d1 p I2 eq_refl B ltac:(discriminate)) as [[(d' & W1 & W2 & W3) N]|[[(e & d' & Fl) N]|(n & r & d2 & A & Bn & Br & J1 & J2 & J3 & J4 & J5 & _ & _ & _ & _ & R2)]].
  - left. split; [exists d'; split; [congruence|split; [exact W2|exact W3]]|]. intros i r A.
    destruct (ei_literal b u i r Hb A) as (n & v & m & -> & A1 & A2). rewrite (N _ _ A1) in A2. exact (a_string_nil _ _ _ _ A2).
  - right; left. split; [exists e, d'; congruence|]. intros x i r Bx A.
    destruct (ei_literal b (u ++ x) i r Hb A) as (n & v & m & -> & A1 & A2). exfalso. exact (N x _ _ Bx A1).
  - apply (instr_value p d2 n r (fun _ _ => Bn) J1 J2 J3 Br (eq_trans R R2)) with (mk := InsertLiteral n).
    + intros rr V2 _ _. unfold es_add. rewrite J4. unfold dec_literal_add. rewrite V2, J5, J3. reflexivity.
    + reflexivity.
    + intros v r' A'. exists b, u. split; [reflexivity|]. split; [exact Hb|]. exists r. auto.
    + intros x i r' Bx A'. destruct (ei_literal b (u ++ x) i r' Hb A') as (n' & v & m & -> & A1 & A2).
      assert (X : a_name 5 (p ++ x) n (r ++ x)) by (apply a_string_app; exact A).
      destruct (a_string_fun _ _ _ _ _ _ _ ltac:(apply (proj2 (bytes_app p x)); auto) X A1) as (<- & <-). eauto.
Qed.

Lemma instr_index b u : bytes (b :: u) -> 128 <= b ->
  (waits d (b :: u) /\ unfinished (b :: u)) \/ (fails d (b :: u) /\ no_instruction max t (b :: u)) \/ done max d t (b :: u).
Proof.
  intros B Hb. set (p := b :: u). assert (Hb0 : b < 256) by (inversion B as [|? ? X]; destruct X; lia).
  remember (b <? 192) as dyn eqn:Ed.
  assert (E1 : es_step d p = SGo (d_set_op d EsReadIndex OpInsertIndexed (rs_set_op rs_reset 6 false dyn)) p false []).
  { unfold es_step, p. rewrite St, r_start. destruct (es_bits b) as (X1 & X2 & X3 & X4); [inversion B; auto|].
    rewrite X1, X4. rewrite (proj2 (Z.leb_le 128 b)) by lia. rewrite Ed, (proj2 (Z.ltb_ge b 64)) by lia. reflexivity. }
  destruct (go1 p _ B ltac:(discriminate) E1) as (R & I2). set (d1 := d_set_op d _ _ _) in *.
  pose proof (run1 d1 p I2 B ltac:(discriminate)) as R1. pose proof (es_inv_go d1 p) as IG. unfold turn in R1.
  assert (E2 : es_step d1 p = es_read_index d1 p) by reflexivity. rewrite E2 in R1, IG. unfold es_read_index in R1, IG.
  change (r_prefix (d_rs d1)) with 6 in R1, IG. change (r_left (d_rs d1)) with 0 in R1, IG. change (r_shift (d_rs d1)) with 0 in R1, IG.
  change (d_op d1) with OpInsertIndexed in R1, IG. cbv iota in R1, IG. change (d_ctx d1) with (d_ctx d) in R1, IG.
  pose proof (int_cases 6 p ltac:(lia) B ltac:(discriminate)) as Q.
  destruct (q_read_varint 6 0 0 p) as [[[[n sh] rest] [|]]|e|].
  - destruct Q as (A & Hn & Br & _).
    set (mk := fun v => if 192 <=? b then InsertStatic n v else InsertDynamic n v).
    assert (U : forall x i r, bytes x -> an_einstr (p ++ x) i r -> exists v, i = mk v /\ a_value (rest ++ x) v r).
    { intros x i r _ A'. destruct (ei_index b (u ++ x) i r Hb A') as (k & v & m & E & A2 & A3).
      destruct (an_int_fun _ _ _ _ _ _ (an_int_app _ _ _ _ x A) A2) as (<- & <-). exists v. auto. }
    assert (V : forall v r, a_value rest v r -> an_einstr p (mk v) r).
    { intros v r A'. exists b, u. split; [reflexivity|]. unfold mk. destruct (Z.leb_spec 192 b); (split; [lia|]); exists rest; auto. }
    assert (Fc : (forall v, carry_out max t (mk v) = None) -> rel2abs (d_ctx d) (rs_set_int (d_rs d1) n sh) = Err ERR_QPACK_ENCODER_STREAM_ERROR ->
      fails d p /\ no_instruction max t p).
    { intros C E. rewrite E in R1. split; [unfold es_fail in R1; eexists _, _; rewrite R; exact R1|].
      intros x i r Bx A'. destruct (U x i r Bx A') as (v & -> & _). apply C. }
    unfold mk in *. destruct (Z.leb_spec 192 b) as [L|L].
    + rewrite (proj2 (Z.ltb_ge b 192)) in Ed by lia. subst dyn. pose proof (static_get n Hn) as SG.
      assert (RA : rel2abs (d_ctx d) (rs_set_int (d_rs d1) n sh) =
        if n <? 99 then Ok (rs_set_absidx (rs_set_int (d_rs d1) n sh) n) else Err ERR_QPACK_ENCODER_STREAM_ERROR) by reflexivity.
      destruct (stable_get n) as [[[n0 v0] tk]|] eqn:G.
      * destruct SG as (SG & -> & Bn & _).
        assert (L99 : n < 99).
        { unfold stable_get in G. rewrite (proj2 (Z.ltb_ge _ _) Hn) in G.
          assert (X : nth_error stable (Z.to_nat n) <> None) by congruence. apply nth_error_Some in X. change (length stable) with 99%nat in X. lia. }
        rewrite RA, (proj2 (Z.ltb_lt n 99) L99) in R1, IG. rewrite rev_nil2 in R1.
        apply (instr_value p _ n0 rest (fun _ _ => Bn) (IG _ _ _ _ I2 B ltac:(discriminate) eq_refl) eq_refl eq_refl Br (eq_trans R R1)) with (mk := InsertStatic n); auto.
        -- intros rr _ V3 V4. unfold es_add. cbn [d_set d_op]. change (d_op d1) with OpInsertIndexed. cbv iota. unfold dec_indexed_add.
           rewrite V4, V3. change (r_dynamic _) with false. change (r_absidx _) with n. cbv iota. rewrite G. reflexivity.
        -- intros v. cbn. rewrite SG. reflexivity.
      * right; left. apply Fc; [intros v; cbn; rewrite SG; reflexivity|]. rewrite RA.
        destruct (Z.ltb_spec n 99); [|reflexivity]. exfalso. unfold stable_get in G. rewrite (proj2 (Z.ltb_ge _ _) Hn) in G.
        apply nth_error_None in G. change (length stable) with 99%nat in G. lia.
    + rewrite (proj2 (Z.ltb_lt b 192)) in Ed by lia. subst dyn. pose proof (tm_relative max _ t n M Hn) as C. destruct (relative t n) as [f|] eqn:Er.
      * destruct C as (e & G & K & T & Bn & Bv & L1 & L2).
        rewrite (rel2abs_dyn (d_ctx d) _ n) in R1, IG by (auto; reflexivity). rewrite rev_nil2 in R1.
        apply (instr_value p _ (e_name e) rest (fun _ _ => Bn) (IG _ _ _ _ I2 B ltac:(discriminate) eq_refl) eq_refl eq_refl Br (eq_trans R R1)) with (mk := InsertDynamic n); auto.
        -- intros rr _ V3 V4. unfold es_add. cbn [d_set d_op]. change (d_op d1) with OpInsertIndexed. cbv iota. unfold dec_indexed_add.
           rewrite V4, V3. change (r_dynamic _) with true. change (r_absidx _) with (next_absidx (d_ctx d) - n - 1). cbv iota.
           change (d_ctx _) with (d_ctx d). rewrite G, T. reflexivity.
        -- intros v. cbn. rewrite Er, <- K. reflexivity.
      * right; left. apply Fc; [intros v; cbn; rewrite Er; reflexivity|].
        unfold rel2abs, validate_index. cbn [rs_set_int rs_set_absidx r_dynamic r_left r_absidx d_rs].
        change (r_dynamic (d_rs d1)) with true. cbn [andb].
        destruct (Z.ltb_spec (next_absidx (d_ctx d)) (n + 1)); [reflexivity|].
        replace (next_absidx (d_ctx d) - (next_absidx (d_ctx d) - n - 1) - 1) with n by lia.
        rewrite (proj2 (Z.ltb_ge n _)) by lia. rewrite andb_false_r. reflexivity.
  - left. split; [exists (d_set d1 EsReadIndex (rs_set_int (d_rs d1) n sh)); split; [rewrite R; exact R1|split; [reflexivity|discriminate]]|].
    intros i r A'. destruct (ei_index b u i r Hb A') as (n' & v & m & -> & A2 & _). exact (Q _ _ A2).
  - right; left. split; [unfold es_fail in R1; eexists _, _; rewrite R; exact R1|].
    intros x i r Bx A'. destruct (ei_index b (u ++ x) i r Hb A') as (n' & v & m & -> & A2 & _). exfalso. exact (Q x _ _ Bx A2).
  - destruct Q.
Qed.

Lemma instr_cases p : bytes p -> p <> [] ->
  (waits d p /\ unfinished p) \/ (fails d p /\ no_instruction max t p) \/ done max d t p.
Proof.
  intros B Hne. destruct p as [|b u]; [congruence|].
  destruct (Z_lt_le_dec b 32); [apply instr_dup; auto|]. destruct (Z_lt_le_dec b 64); [apply instr_cap; auto|].
  destruct (Z_lt_le_dec b 128); [apply instr_literal; auto|apply instr_index; auto].
Qed.
End Instr.

Lemma an_einstr_len l i r : an_einstr l i r -> (length r < length l)%nat.
Proof.
  intros (b & t & -> & A). destruct i as [n|k v|k v|n v|k].
  - destruct A as (_ & A). exact (an_int_len _ _ _ _ A).
  - destruct A as (_ & m & A & A'). apply an_int_len in A. apply a_string_len in A'. lia.
  - destruct A as (_ & m & A & A'). apply an_int_len in A. apply a_string_len in A'. lia.
  - destruct A as (_ & m & A & A'). apply a_string_len in A. apply a_string_len in A'. lia.
  - destruct A as (_ & A). exact (an_int_len _ _ _ _ A).
Qed.
Lemma an_einstr_nil i r : ~ an_einstr [] i r.
Proof. intros (b & t & E & _). discriminate. Qed.

(* the whole stream *)
Theorem es_run_rfc max p : forall d t, es_inv d -> d_state d = EsOpcode -> tmatch max (d_ctx d) t -> bytes p ->
  match es_run d p with
  | ROk d' _ => exists t' l, instructions max t p t' l /\ unfinished l /\ tmatch max (d_ctx d') t'
  | RErr _ _ _ => exists t' l, instructions max t p t' l /\ no_instruction max t' l
  | _ => False
  end.
Proof.
  remember (length p) as n eqn:En. revert p En. induction n as [n IH] using (well_founded_induction Wf_nat.lt_wf).
  intros p En d t I St M B. destruct p as [|b u].
  { cbn. exists t, []. split; [constructor|]. split; [intros i r; apply an_einstr_nil|exact M]. }
  destruct (instr_cases max d t I St M (b :: u) B ltac:(discriminate)) as [[(d' & R & C & _) U]|[[(e & d' & R) U]|(i & r & t' & d' & A & Br & C & I' & S' & M' & R)]].
  - rewrite R. exists t, (b :: u). split; [constructor|]. split; [exact U|]. rewrite C. exact M.
  - rewrite R. exists t, (b :: u). split; [constructor|exact U].
  - rewrite R. pose proof (an_einstr_len _ _ _ A) as L.
    specialize (IH (length r) ltac:(lia) r eq_refl d' t' I' S' M' Br).
    destruct (es_run d' r); try exact IH; destruct IH as (t2 & l & X & Y); exists t2, l; (split; [econstructor; eauto|exact Y]).
Qed.
