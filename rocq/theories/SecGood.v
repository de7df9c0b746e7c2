(* What a field section decoded by the QPACK decoder gives: states stay well formed, the
   fields carry the token of their name. *)
From Verif Require Import Base BaseLemmas Tables QpackIntModel QpackIntSpec QpackIntProofs
  HuffModel HuffSpec HuffProofs QpackTabModel QpackTabSpec QpackTabProofs QpackDynSpec QpackDynProofs
  Chunk Chunk2 QpackDecModel QpackReadProofs QpackDecProofs QpackSecProofs QpackHistModel QpackHistSpec QpackHistProofs
  QpackCutProofs HttpModel.
Open Scope Z_scope.

Lemma good_dyn c i e v fl : ctx_ok c -> dtable_get c i = Some e -> bytes v -> good_field (mk_qnv (e_name e) v (e_token e) fl).
Proof. intros [W _] E H. destruct (dtable_get_inv _ _ _ W E) as (_ & _ & _ & A & B & C). repeat split; auto. Qed.
Lemma good_dyn' c i e fl : ctx_ok c -> dtable_get c i = Some e -> good_field (mk_qnv (e_name e) (e_value e) (e_token e) fl).
Proof. intros [W _] E. destruct (dtable_get_inv _ _ _ W E) as (_ & _ & _ & A & B & C). repeat split; auto. Qed.
Lemma good_sta i n v t w fl : stable_get i = Some (n, v, t) -> bytes w -> good_field (mk_qnv n w t fl).
Proof. intros E H. destruct (stable_get_token _ _ _ _ E). destruct (stable_bytes _ _ _ _ E). repeat split; auto. Qed.
Lemma good_sta' i n v t fl : stable_get i = Some (n, v, t) -> good_field (mk_qnv n v t fl).
Proof. intros E. destruct (stable_get_token _ _ _ _ E). destruct (stable_bytes _ _ _ _ E). repeat split; auto. Qed.

Lemma emit_indexed_good c r v : ctx_ok c -> emit_indexed c r = Ok v -> good_field v.
Proof.
  intros W. unfold emit_indexed. destruct (r_dynamic r).
  - destruct (dtable_get c (r_absidx r)) eqn:E; [|discriminate]. intros H; injection H as <-. eapply good_dyn'; eauto.
  - destruct (stable_get (r_absidx r)) as [[[n w] t]|] eqn:E; [|discriminate]. intros H; injection H as <-. eapply good_sta'; eauto.
Qed.
Lemma emit_indexed_name_good c r v : ctx_ok c -> bytes (r_value r) -> emit_indexed_name c r = Ok v -> good_field v.
Proof.
  intros W B. unfold emit_indexed_name. destruct (r_dynamic r).
  - destruct (negb _); [discriminate|]. destruct (dtable_get c (r_absidx r)) eqn:E; [|discriminate].
    intros H; injection H as <-. eapply good_dyn; eauto.
  - destruct (stable_get (r_absidx r)) as [[[n w] t]|] eqn:E; [|discriminate]. intros H; injection H as <-. eapply good_sta; eauto.
Qed.

Lemma rs_value_good c (huf : bool) s a : ctx_ok c -> rs_inv s -> bytes a ->
  s_state s = (if huf then RsReadValueHuffman else RsReadValue) ->
  match rs_read_value c huf s a with
  | SGo _ _ _ ev | SMore _ ev | SStop _ _ ev | SErr _ _ ev => Forall good_field ev
  | SAbort => True
  end.
Proof.
  intros W Hi Ha Est. pose proof Hi as (I1 & I2 & I).
  assert (I' : str_ok huf (r_left (s_rs s)) (r_huff (s_rs s)) (r_value (s_rs s)) (r_vcap (s_rs s)) /\ sop_val s).
  { cbv zeta in I. rewrite Est in I. destruct huf; exact I. }
  pose proof Logic.I as I0. destruct I' as [Hs Op]. pose proof (read_str_split huf _ _ _ _ a Ha Hs) as Q. unfold rs_read_value.
  destruct (read_str huf (r_left (s_rs s)) (r_huff (s_rs s)) (r_value (s_rs s)) (r_vcap (s_rs s)) a)
    as [[[[lft fs] value] rest]|e|]; [|constructor|constructor].
  destruct (Z.eqb_spec lft 0) as [->|Hl]; cbn [negb]; cbv zeta; [|constructor].
  destruct Q as (Hb & _). unfold sop_val in Op.
  assert (N : match (match emit_indexed_name c (rs_set_value (s_rs s) 0 fs value) with
     | Ok v => rs_emit s v rest | Err e => rs_fail e s | Abort => SAbort end) with
     | SGo _ _ _ ev | SMore _ ev | SStop _ _ ev | SErr _ _ ev => Forall good_field ev
     | SAbort => True end).
  { destruct (emit_indexed_name c (rs_set_value (s_rs s) 0 fs value)) eqn:E; unfold rs_emit, rs_fail;
      [|constructor|exact I0].
    constructor; [|constructor]. eapply emit_indexed_name_good; [exact W| |exact E]. exact Hb. }
  destruct (s_op s); try contradiction; try exact N.
  unfold rs_emit. constructor; [|constructor]. split; [reflexivity|]. split; auto.
Qed.

Lemma rs_step_good c s a : ctx_ok c -> rs_inv s -> bytes a ->
  match rs_step c s a with
  | SGo _ _ _ ev | SMore _ ev | SStop _ _ ev | SErr _ _ ev => Forall good_field ev
  | SAbort => True
  end.
Proof.
  intros W Hi Ha. unfold rs_step.
  assert (E0 : Forall good_field []) by constructor.
  destruct (s_state s) eqn:Est;
    try (apply rs_value_good; auto).
  all: unfold rs_read_ricnt, rs_read_dbase, rs_read_index, rs_read_namelen, rs_read_valuelen, rs_read_name,
    rs_opcode_step, rs_emit, rs_fail.
  all: repeat (match goal with
    | |- Forall good_field [] => exact E0
    | |- True => exact I
    | |- Forall good_field [?v] => constructor; [eapply emit_indexed_good; eassumption|constructor]
    | |- context [match (match ?X with _ => _ end) with _ => _ end] => destruct X eqn:?
    | |- context [match ?X with _ => _ end] => destruct X eqn:?
    end; cbv zeta).
Qed.
Lemma rs_step_stop c s p s' rest ev : rs_inv s -> bytes p -> p <> [] ->
  rs_step c s p = SStop s' rest ev -> (length rest <= length p)%nat.
Proof.
  intros Hi Hb Hne. pose proof Hi as (I1 & I2 & I). cbv zeta in I.
  assert (D : forall s0 r, r_prefix r = 7 -> rs_ok (r_left r) (r_shift r) ->
    rs_read_dbase c s0 r p = SStop s' rest ev -> (length rest <= length p)%nat).
  { intros s0 r P Rk H. unfold rs_read_dbase in H. pose proof (q_read_varint_inv 7 (r_left r) (r_shift r) p ltac:(lia) Hb Hne Rk) as V.
    rewrite P in H. destruct (q_read_varint 7 (r_left r) (r_shift r) p) as [[[[l sh] rs] [|]]|e|]; try discriminate.
    destruct (_ && _); [discriminate|]. cbv zeta in H. destruct (_ >? _); [|discriminate].
    injection H as _ <- _. destruct V as (_ & cc & -> & _). rewrite app_length. lia. }
  unfold rs_step, rs_read_ricnt, rs_read_index, rs_read_namelen, rs_read_valuelen, rs_read_name, rs_read_value,
    rs_opcode_step, rs_emit, rs_fail.
  destruct (s_state s) eqn:Est; intros H.
  2: { destruct p as [|b p']; [congruence|]. cbv zeta in H. eapply D; [| |exact H]; [reflexivity|apply rs_ok_0]. }
  2: { destruct I as [I3 I4]. eapply D; eauto. }
  all: repeat (match type of H with
    | SGo _ _ _ _ = _ => discriminate H
    | SMore _ _ = _ => discriminate H
    | SErr _ _ _ = _ => discriminate H
    | SAbort = _ => discriminate H
    | SStop _ _ _ = _ => injection H as _ <- _; auto; lia
    | context [match (match ?X with _ => _ end) with _ => _ end] => destruct X eqn:?
    | context [match ?X with _ => _ end] => destruct X eqn:?
    end; cbv zeta in H).
Qed.

Lemma decode_all_good f : forall d s p fin, ctx_ok (d_ctx d) -> sec_ok (d_ctx d) s -> bytes p ->
  snd (decode_all f d s p fin) = RqAbort \/ rq_good d s (snd (decode_all f d s p fin)).
Proof.
  induction f as [|f IH]; intros d s p fin W Hs Hb; cbn [decode_all]; [left; auto|].
  pose proof (read_request_good d s p fin W Hs Hb) as G.
  destruct (read_request d s p fin) as [s' v rest|s' rest|s'|d' s'|e d' s'|]; try (right; exact G).
  destruct G as (G1 & G2 & G3). specialize (IH d s' rest fin W G1 G3).
  destruct (decode_all f d s' rest fin) as [vs r]. cbn [snd] in *. destruct IH as [->|IH]; [left; auto|right].
  destruct r; cbn in *; rewrite ?G2 in *; auto; try tauto; intuition congruence.
Qed.

Lemma rs_run_stop c s p : ctx_ok c -> rs_inv s -> bytes p ->
  match rs_run c s p with RStop _ rest _ => (length rest <= length p)%nat | _ => True end.
Proof.
  intros W Hi Hb. unfold rs_run.
  assert (HS : forall s a, rs_inv s -> bytes a -> runnable rs_ce s a ->
    match rs_step c s a with
    | SGo s' rest _ ev | SStop s' rest ev => (length rest <= length a)%nat
    | SMore s' ev => (@length Z [] <= length a)%nat
    | _ => True end).
  { intros s0 a Hi0 Ha Rn. pose proof (rs_step_sok c W s0 a Hi0 Ha Rn) as SO.
    destruct (rs_step c s0 a) as [s1 r1 b1 e1|s1 e1|s1 r1 e1|e s1 e1|] eqn:E; auto.
    - destruct SO as (_ & _ & M & _). unfold measure in M. assert (rs_rank s0 <= 6)%nat by (unfold rs_rank; destruct (s_state s0); lia). lia.
    - cbn; lia.
    - destruct a as [|x a].
      + destruct SO as (_ & _ & SO). destruct r1; [cbn; lia|].
        destruct Rn as [Rn|Rn]; [congruence|]. exfalso.
        destruct Rn as [Rn|Rn]; unfold rs_step in E; rewrite Rn in E; unfold rs_read_value in E;
          destruct (read_str _ _ _ _ _ _) as [[[[lft fs] value] rest]|e|]; try discriminate; cbv zeta in E;
          destruct (negb _); try discriminate; destruct (s_op s0); try discriminate;
          destruct (emit_indexed_name _ _); discriminate.
      + eapply rs_step_stop; eauto; discriminate. }
  set (R := fun (_ : sctx) (p : list Z) (_ : list qnv) (_ : sctx) (rest : list Z) => (length rest <= length p)%nat).
  assert (R1 : forall s, rs_inv s -> R s [] [] s []) by (intros; apply le_n).
  assert (R2 : forall s1 p1 e1 s2 p2 e2 s3 p3, R s1 p1 e1 s2 p2 -> R s2 p2 e2 s3 p3 -> R s1 p1 (e1 ++ e2) s3 p3)
    by (intros ? ? ? ? ? ? ? ? A1 A2; exact (Nat.le_trans _ _ _ A2 A1)).
  pose proof (run_rel (rs_step c) 8 rs_rank rs_inv rs_ce (rs_step_sok c W) R R1 R2 HS s p false Hi Hb ltac:(discriminate)) as RR.
  destruct (run (rs_step c) 8 rs_rank s p false); auto.
Qed.
Lemma rs_run_good c s p : ctx_ok c -> rs_inv s -> bytes p ->
  match rs_run c s p with ROk _ ev | RStop _ _ ev | RErr _ _ ev => Forall good_field ev | RAbort => True end.
Proof.
  intros W Hi Hb. apply (run_evs (rs_step c) 8 rs_rank rs_inv rs_ce (rs_step_sok c W)); auto; [|discriminate].
  intros s0 a Hi0 Ha _. apply rs_step_good; auto.
Qed.

Theorem dsec_good d s p fin : es_inv d -> bad (d_ctx d) = false -> sec_ok (d_ctx d) s -> bytes p ->
  Forall good_field (fst (decode_section d s p fin)) /\
  match snd (decode_section d s p fin) with
  | RqNone s' => fin = false /\ sec_ok (d_ctx d) s' /\ s_id s' = s_id s
  | RqBlocked s' rest => sec_ok (d_ctx d) s' /\ s_id s' = s_id s /\ bytes rest /\ (length rest <= length p)%nat
  | RqFinal d' s' => fin = true /\ sec_ok (d_ctx d) s' /\ s_id s' = s_id s /\ read_request_fin d s' = Ok d'
  | RqErr _ _ _ => True
  | RqEmit _ _ _ | RqAbort => False
  end.
Proof.
  intros [W We] B Hs Hb. destruct Hs as [Hi Hr].
  pose proof (decode_all_good (S (S (length p))) d s p fin W (conj Hi Hr) Hb) as G.
  fold (decode_section d s p fin) in G.
  rewrite decode_section_run in * by auto.
  pose proof (run_good (rs_step (d_ctx d)) 8 rs_rank rs_inv rs_ce (rs_step_sok (d_ctx d) W) s p false Hi Hb ltac:(discriminate)) as Gd.
  fold (rs_run (d_ctx d) s p) in Gd. pose proof (rs_run_stop (d_ctx d) s p W Hi Hb) as St.
  pose proof (rs_run_good (d_ctx d) s p W Hi Hb) as Gf.
  destruct (rs_run (d_ctx d) s p) as [s' ev|s' rest ev|e s' ev|]; cbn [sec_result fst snd] in *.
  - split; [auto|]. destruct G as [G|G]; [exfalso; exact (rq_end_no_abort _ _ _ G)|].
    unfold rq_end in *. destruct fin.
    + destruct (read_request_fin d s') as [d'|e|] eqn:E; auto.
      destruct G as (G1 & G2 & G3 & G4). auto.
    + destruct G as (G1 & G2). auto.
  - split; [auto|]. destruct G as [G|G]; [discriminate|]. destruct G as (G1 & G2 & G3). auto.
  - auto.
  - contradiction.
Qed.
