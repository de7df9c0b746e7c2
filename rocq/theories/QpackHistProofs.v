From Verif Require Import Base BaseLemmas Tables QpackIntModel QpackIntSpec QpackIntProofs
  HuffModel HuffSpec HuffProofs QpackTabModel QpackTabSpec QpackTabProofs QpackDynSpec QpackDynProofs
  Chunk QpackDecModel QpackReadProofs QpackDecProofs QpackSecProofs QpackHistModel QpackHistSpec.

(* the Required Insert Count of a section being decoded has been reached *)
Definition ric_ok (c : ctx) (s : sctx) : Prop :=
  match s_state s with
  | RsRicnt | RsDbaseSign | RsDbase | RsBlocked => True
  | _ => s_ricnt s <= next_absidx c
  end.
Definition meta (c : ctx) (s s' : sctx) : Prop := s_id s' = s_id s /\ ric_ok c s'.
Lemma rs_step_meta c s p : ric_ok c s ->
  match rs_step c s p with
  | SGo s' _ _ _ | SMore s' _ | SStop s' _ _ | SErr _ s' _ => meta c s s'
  | SAbort => True
  end.
Proof.
  intros H. unfold rs_step. unfold ric_ok in H.
  assert (M : forall s', s_id s' = s_id s -> (match s_state s' with
    | RsRicnt | RsDbaseSign | RsDbase | RsBlocked => True | _ => s_ricnt s' <= next_absidx c end) -> meta c s s')
    by (intros s' A B; split; [exact A|exact B]).
  destruct (s_state s) eqn:St.
  - unfold rs_read_ricnt. destruct (q_read_varint _ _ _ _) as [[[[l sh] r] [|]]|e|]; try (apply M; cbn; auto; fail); auto.
    destruct (reconstruct_ricnt c l); try (apply M; cbn; auto; fail); auto.
  - destruct p as [|b p]; [auto|].
    assert (Hid : s_id (if negb (Z.land b 128 =? 0) then s_set_sign s true else s) = s_id s) by (destruct (negb _); auto).
    set (s0 := if negb (Z.land b 128 =? 0) then s_set_sign s true else s) in *. unfold rs_read_dbase.
    destruct (q_read_varint _ _ _ _) as [[[[l sh] r] [|]]|e|]; try (apply M; cbn; auto; fail); auto.
    destruct (s_sign s0 && (s_ricnt s0 <=? l)); [apply M; cbn; auto; fail|]. cbv zeta.
    cbn [s_ricnt s_set_base]. destruct (Z.gtb_spec (s_ricnt s0) (next_absidx c)); apply M; cbn; auto.
  - unfold rs_read_dbase.
    destruct (q_read_varint _ _ _ _) as [[[[l sh] r] [|]]|e|]; try (apply M; cbn; auto; fail); auto.
    destruct (s_sign s && (s_ricnt s <=? l)); [apply M; cbn; auto; fail|]. cbv zeta.
    cbn [s_ricnt s_set_base]. destruct (Z.gtb_spec (s_ricnt s) (next_absidx c)); apply M; cbn; auto.
  - destruct p as [|b p]; [auto|]. unfold rs_opcode_step. destruct (_ || _); [auto|]. cbv zeta.
    repeat (match goal with |- context [if ?X then _ else _] => destruct X end); apply M; cbn; auto.
  - unfold rs_read_index. destruct (q_read_varint _ _ _ _) as [[[[l sh] r] [|]]|e|];
      try (apply M; cbn; auto; fail); auto. cbv zeta.
    match goal with |- context [match ?X with Ok _ => _ | Err _ => _ | Abort => _ end] => destruct X as [r'|e|]; auto end;
      [|apply M; cbn; auto].
    destruct (s_op s); try (destruct (emit_indexed c r')); auto; apply M; cbn; auto.
  - destruct p as [|b p]; [auto|]. unfold rs_read_namelen.
    destruct (q_read_varint _ _ _ _) as [[[[l sh] r] [|]]|e|]; try (apply M; cbn; auto; fail); auto.
    destruct (l >? MAX_NAMELEN); apply M; cbn; auto. destruct (negb _); auto.
  - unfold rs_read_namelen.
    destruct (q_read_varint _ _ _ _) as [[[[l sh] r] [|]]|e|]; try (apply M; cbn; auto; fail); auto.
    destruct (l >? MAX_NAMELEN); apply M; cbn; auto. destruct (r_hufenc _); auto.
  - unfold rs_read_name. destruct (read_str _ _ _ _ _ _) as [[[[l f] nm] r]|e|]; auto; [|apply M; cbn; auto].
    destruct (negb _); apply M; cbn; rewrite ?St; auto.
  - unfold rs_read_name. destruct (read_str _ _ _ _ _ _) as [[[[l f] nm] r]|e|]; auto; [|apply M; cbn; auto].
    destruct (negb _); apply M; cbn; rewrite ?St; auto.
  - destruct p as [|b p]; [auto|]. unfold rs_read_valuelen.
    destruct (q_read_varint _ _ _ _) as [[[[l sh] r] [|]]|e|]; try (apply M; cbn; auto; fail); auto.
    destruct (l >? MAX_VALUELEN); apply M; cbn; auto. destruct (negb _); auto.
  - unfold rs_read_valuelen.
    destruct (q_read_varint _ _ _ _) as [[[[l sh] r] [|]]|e|]; try (apply M; cbn; auto; fail); auto.
    destruct (l >? MAX_VALUELEN); apply M; cbn; auto. destruct (r_hufenc _); auto.
  - unfold rs_read_value. destruct (read_str _ _ _ _ _ _) as [[[[l f] nm] r]|e|]; auto; [|apply M; cbn; auto]. cbv zeta.
    destruct (negb _); [apply M; cbn; rewrite ?St; auto|].
    match goal with |- context [match ?X with Ok _ => _ | Err _ => _ | Abort => _ end] => destruct X as [v|e|]; auto end; apply M; cbn; auto.
  - unfold rs_read_value. destruct (read_str _ _ _ _ _ _) as [[[[l f] nm] r]|e|]; auto; [|apply M; cbn; auto]. cbv zeta.
    destruct (negb _); [apply M; cbn; rewrite ?St; auto|].
    match goal with |- context [match ?X with Ok _ => _ | Err _ => _ | Abort => _ end] => destruct X as [v|e|]; auto end; apply M; cbn; auto.
  - destruct (Z.gtb_spec (s_ricnt s) (next_absidx c)); apply M; cbn; rewrite ?St; auto.
Qed.

Definition ctx_le (c c' : ctx) : Prop := hard_max c' = hard_max c /\ next_absidx c <= next_absidx c'.
Definition dmeta (d d' : dec) : Prop :=
  d_dbuf d' = d_dbuf d /\ d_written d' = d_written d /\ d_maxconc d' = d_maxconc d /\ d_unint d' = d_unint d /\
  ctx_le (d_ctx d) (d_ctx d').
Lemma dec_add_le c n v t c' : dec_add c n v t = Ok c' -> ctx_le c c'.
Proof.
  unfold dec_add, dtable_add. cbv zeta. destruct (_ >? _); [discriminate|]. destruct (evict_loop _ _ _ _) as [[l s]|e|]; try discriminate.
  intros H; injection H as <-. split; cbn; [auto|lia].
Qed.
Lemma dec_set_cap_le c n c' : dec_set_cap c n = Ok c' -> ctx_le c c'.
Proof.
  unfold dec_set_cap. destruct (_ >? _); [discriminate|].
  destruct (evict_loop _ _ _ _) as [[l s]|e|]; try discriminate.
  intros H; injection H as <-. split; cbn; [auto|lia].
Qed.
Lemma ctx_le_refl c : ctx_le c c. Proof. split; [auto|lia]. Qed.
Lemma ctx_le_bad c : ctx_le c (ctx_bad c). Proof. split; cbn; [auto|lia]. Qed.
Lemma ctx_le_trans a b c : ctx_le a b -> ctx_le b c -> ctx_le a c.
Proof. intros [A B] [C D]; split; [congruence|lia]. Qed.
Lemma dmeta_trans a b c : dmeta a b -> dmeta b c -> dmeta a c.
Proof.
  intros (A1 & A2 & A3 & A4 & A5) (B1 & B2 & B3 & B4 & B5).
  split; [congruence|split; [congruence|split; [congruence|split; [congruence|eapply ctx_le_trans; eauto]]]].
Qed.
Lemma dmeta_refl a : dmeta a a.
Proof. split; [auto|split; [auto|split; [auto|split; [auto|apply ctx_le_refl]]]]. Qed.

Lemma es_step_meta d p :
  match es_step d p with
  | SGo d' _ _ _ | SMore d' _ | SStop d' _ _ | SErr _ d' _ => dmeta d d'
  | SAbort => True
  end.
Proof.
  assert (M : forall st op r, dmeta d (d_set_op d st op r)) by (intros; unfold dmeta; cbn; intuition; apply ctx_le_refl).
  assert (M2 : forall st r, dmeta d (d_set d st r)) by (intros; unfold dmeta; cbn; intuition; apply ctx_le_refl).
  assert (MF : dmeta d (d_fail d)) by (intros; unfold dmeta; cbn; intuition; apply ctx_le_bad).
  assert (MD : forall c st r, ctx_le (d_ctx d) c -> dmeta d (d_set (d_set_ctx d c) st r)) by (intros; unfold dmeta; cbn; intuition).
  assert (DI : forall r c', dec_indexed_add (d_ctx d) r = Ok c' -> ctx_le (d_ctx d) c').
  { intros r c'. unfold dec_indexed_add. destruct (r_dynamic r).
    - destruct (dtable_get _ _); [apply dec_add_le|discriminate].
    - destruct (stable_get _) as [[[? ?] ?]|]; [apply dec_add_le|discriminate]. }
  assert (DD : forall r c', dec_duplicate_add (d_ctx d) r = Ok c' -> ctx_le (d_ctx d) c').
  { intros r c'. unfold dec_duplicate_add.
    destruct (dtable_get _ _); [apply dec_add_le|discriminate]. }
  unfold es_step. destruct (d_state d) eqn:St.
  - destruct p as [|b p]; [auto|]. cbv zeta.
    repeat (match goal with |- context [if ?X then _ else _] => destruct X end); apply M.
  - unfold es_read_index. destruct (q_read_varint _ _ _ _) as [[[[l sh] r] [|]]|e|]; auto. cbv zeta.
    destruct (d_op d); cbn.
    + destruct (rel2abs _ _); auto.
    + destruct (rel2abs _ _); auto.
    + destruct (rel2abs _ _) as [r'|e|]; auto. destruct (dec_duplicate_add _ _) eqn:E; auto. apply MD. eauto.
    + destruct (dec_set_cap _ _) eqn:E; auto. apply MD. eapply dec_set_cap_le; eauto.
  - destruct p as [|b p]; [auto|]. unfold es_read_namelen.
    destruct (q_read_varint _ _ _ _) as [[[[l sh] r] [|]]|e|]; auto. destruct (_ >? _); auto.
  - unfold es_read_namelen.
    destruct (q_read_varint _ _ _ _) as [[[[l sh] r] [|]]|e|]; auto. destruct (_ >? _); auto.
  - unfold es_read_name. destruct (read_str _ _ _ _ _ _) as [[[[l f] nm] r]|e|]; auto. destruct (negb _); apply M2.
  - unfold es_read_name. destruct (read_str _ _ _ _ _ _) as [[[[l f] nm] r]|e|]; auto. destruct (negb _); apply M2.
  - destruct p as [|b p]; [auto|]. unfold es_read_valuelen.
    destruct (q_read_varint _ _ _ _) as [[[[l sh] r] [|]]|e|]; auto. destruct (_ >? _); auto.
  - unfold es_read_valuelen.
    destruct (q_read_varint _ _ _ _) as [[[[l sh] r] [|]]|e|]; auto. destruct (_ >? _); auto.
  - unfold es_read_value. destruct (read_str _ _ _ _ _ _) as [[[[l f] nm] r]|e|]; auto. cbv zeta. destruct (negb _); [apply M2|].
    destruct (d_op d); auto; [destruct (dec_indexed_add _ _) eqn:E|destruct (dec_literal_add _ _) eqn:E]; auto; apply MD; eauto.
    eapply dec_add_le; exact E.
  - unfold es_read_value. destruct (read_str _ _ _ _ _ _) as [[[[l f] nm] r]|e|]; auto. cbv zeta. destruct (negb _); [apply M2|].
    destruct (d_op d); auto; [destruct (dec_indexed_add _ _) eqn:E|destruct (dec_literal_add _ _) eqn:E]; auto; apply MD; eauto.
    eapply dec_add_le; exact E.
Qed.

Lemma es_run_meta d p :
  match es_run d p with
  | ROk d' _ | RStop d' _ _ | RErr _ d' _ => dmeta d d'
  | RAbort => True
  end.
Proof.
  unfold es_run, run. generalize (S (measure 8 es_rank d p)). intros f. generalize false as busy.
  revert d p. induction f as [|f IH]; intros d p busy.
  - destruct p, busy; cbn; auto; apply dmeta_refl.
  - assert (T : match turn es_step d p (run_fuel es_step f) with
              | ROk d' _ | RStop d' _ _ | RErr _ d' _ => dmeta d d' | RAbort => True end).
    { unfold turn. pose proof (es_step_meta d p) as E. destruct (es_step d p) as [d1 r b ev| | | |]; auto.
      specialize (IH d1 r b). destruct (run_fuel es_step f d1 r b); cbn; auto; eapply dmeta_trans; eauto. }
    destruct p, busy; cbn [run_fuel]; auto. apply dmeta_refl.
Qed.

Lemma es_run_good d p : es_inv d -> bytes p -> good es_inv (es_run d p).
Proof. intros. apply (run_good es_step 8 es_rank es_inv es_ce es_step_ok); auto; discriminate. Qed.

Lemma es_no_stop d p : match es_step d p with SStop _ _ _ => False | _ => True end.
Proof.
  unfold es_step, es_read_index, es_read_namelen, es_read_valuelen, es_read_name, es_read_value, es_done, es_fail. destruct (d_state d).
  - destruct p; [auto|]. cbv zeta. repeat (match goal with |- context [if ?X then _ else _] => destruct X end); auto.
  - destruct (q_read_varint _ _ _ _) as [[[[l sh] r] [|]]|e|]; auto. cbv zeta.
    destruct (d_op d); repeat (match goal with |- context [match ?X with Ok _ => _ | Err _ => _ | Abort => _ end] => destruct X; auto end); auto.
  - destruct p; [auto|]. destruct (q_read_varint _ _ _ _) as [[[[l sh] r] [|]]|e|]; auto. destruct (_ >? _); auto.
  - destruct (q_read_varint _ _ _ _) as [[[[l sh] r] [|]]|e|]; auto. destruct (_ >? _); auto.
  - destruct (read_str _ _ _ _ _ _) as [[[[l f] nm] r]|e|]; auto. destruct (negb _); auto.
  - destruct (read_str _ _ _ _ _ _) as [[[[l f] nm] r]|e|]; auto. destruct (negb _); auto.
  - destruct p; [auto|]. destruct (q_read_varint _ _ _ _) as [[[[l sh] r] [|]]|e|]; auto. destruct (_ >? _); auto.
  - destruct (q_read_varint _ _ _ _) as [[[[l sh] r] [|]]|e|]; auto. destruct (_ >? _); auto.
  - destruct (read_str _ _ _ _ _ _) as [[[[l f] nm] r]|e|]; auto. cbv zeta. destruct (negb _); auto.
    destruct (d_op d); repeat (match goal with |- context [match ?X with Ok _ => _ | Err _ => _ | Abort => _ end] => destruct X; auto end); auto.
  - destruct (read_str _ _ _ _ _ _) as [[[[l f] nm] r]|e|]; auto. cbv zeta. destruct (negb _); auto.
    destruct (d_op d); repeat (match goal with |- context [match ?X with Ok _ => _ | Err _ => _ | Abort => _ end] => destruct X; auto end); auto.
Qed.
Lemma es_run_no_stop d p : match es_run d p with RStop _ _ _ => False | _ => True end.
Proof.
  unfold es_run, run. generalize (S (measure 8 es_rank d p)). intros f. generalize false as busy.
  revert d p. induction f as [|f IH]; intros d p busy.
  - destruct p, busy; cbn; auto.
  - assert (T : match turn es_step d p (run_fuel es_step f) with RStop _ _ _ => False | _ => True end).
    { unfold turn. pose proof (es_no_stop d p) as E. destruct (es_step d p) as [d1 r b ev| | | |]; auto.
      specialize (IH d1 r b). destruct (run_fuel es_step f d1 r b); cbn; auto. }
    destruct p, busy; cbn [run_fuel]; auto.
Qed.

Lemma es_inv_unint d u : es_inv d -> es_inv (d_set_unint d u).
Proof. intros H. exact H. Qed.

Lemma read_encoder_ok d src : es_inv d -> bytes src ->
  let (d', r) := read_encoder d src in
  es_inv d' /\ d_dbuf d' = d_dbuf d /\ d_written d' = d_written d /\ d_maxconc d' = d_maxconc d /\
  ctx_le (d_ctx d) (d_ctx d') /\ r <> Abort.
Proof.
  intros Hi Hb. unfold read_encoder. destruct (bad (d_ctx d)).
  { repeat split; auto; try apply Hi; try apply ctx_le_refl; try lia; discriminate. }
  destruct src as [|x src].
  { repeat split; auto; try apply Hi; try apply ctx_le_refl; try lia; discriminate. }
  cbv zeta. set (d1 := d_got d _). assert (Hi1 : es_inv d1) by exact Hi. destruct (_ >? _).
  { repeat split; auto; try apply Hi; try apply ctx_le_refl; cbn; try lia; discriminate. }
  pose proof (es_run_good d1 (x :: src) Hi1 Hb) as G.
  pose proof (es_run_meta d1 (x :: src)) as M. pose proof (es_run_no_stop d1 (x :: src)) as NS.
  destruct (es_run d1 (x :: src)) as [d' ev|d' r ev|e d' ev|]; try contradiction;
    destruct M as (M1 & M2 & M3 & M4 & M5); (split; [exact G|]); repeat split; auto; try apply M5; discriminate.
Qed.

(* ---- requests ---- *)
Definition sec_ok (c : ctx) (s : sctx) : Prop := rs_inv s /\ ric_ok c s.
Lemma sec_ok_le c c' s : ctx_le c c' -> sec_ok c s -> sec_ok c' s.
Proof.
  intros [_ H] [A B]. split; [auto|]. unfold ric_ok in *. destruct (s_state s); auto; lia.
Qed.

Definition rq_good (d : dec) (s : sctx) (r : rq_res) : Prop :=
  match r with
  | RqEmit s' _ rest | RqBlocked s' rest => sec_ok (d_ctx d) s' /\ s_id s' = s_id s /\ bytes rest
  | RqNone s' => sec_ok (d_ctx d) s' /\ s_id s' = s_id s
  | RqFinal d' s' => sec_ok (d_ctx d) s' /\ s_id s' = s_id s /\ s_state s' = RsOpcode /\
      read_request_fin d s' = Ok d'
  | RqErr _ d' s' => sec_ok (d_ctx d) s' /\ s_id s' = s_id s /\ (d' = d \/ d' = d_fail d)
  | RqAbort => False
  end.

Lemma rq_end_good d s s' fin : sec_ok (d_ctx d) s' -> s_id s' = s_id s -> rq_good d s (rq_end d s' fin).
Proof.
  intros A B. unfold rq_end. destruct fin; [|split; auto].
  destruct (read_request_fin d s') as [d'|e|] eqn:E.
  - split; [auto|]. split; [auto|]. split; [|auto].
    unfold read_request_fin in E. destruct (s_state s'); congruence.
  - split; [auto|]. split; [auto|]. auto.
  - unfold read_request_fin in E. destruct (s_state s'); try discriminate.
    destruct (s_ricnt s' =? 0); [discriminate|]. unfold write_section_ack in E. destruct (dbuf_overflow d); discriminate.
Qed.

Lemma rq_loop_good f : forall d s p busy fin, ctx_ok (d_ctx d) -> sec_ok (d_ctx d) s -> bytes p ->
  (busy = true -> rs_ce s) -> (measure 8 rs_rank s p < f)%nat -> rq_good d s (rq_loop f d s p busy fin).
Proof.
  induction f as [|f IH]; intros d s p busy fin W [Hi Hr] Hb Hc Hm; [lia|].
  assert (T : runnable rs_ce s p -> rq_good d s (match rs_step (d_ctx d) s p with
      | SGo s' rest b [] => rq_loop f d s' rest b fin
      | SGo s' rest b (v :: _) => RqEmit s' v rest
      | SMore s' _ => rq_end d s' fin
      | SStop s' rest _ => RqBlocked s' rest
      | SErr e s' _ => RqErr e (d_fail d) s'
      | SAbort => RqAbort
      end)).
  { intros R. pose proof (rs_step_sok (d_ctx d) W s p Hi Hb R) as K. pose proof (rs_step_meta (d_ctx d) s p Hr) as M.
    destruct (rs_step (d_ctx d) s p) as [s' r b ev|s' ev|s' r ev|e s' ev|]; unfold rs_sok, step_ok in K.
    - destruct K as (K1 & K2 & K3 & K4 & _). destruct M as [M1 M2]. destruct ev as [|v ev].
      + pose proof (IH d s' r b fin W (conj K1 M2) K2 K4 ltac:(lia)) as G.
        destruct (rq_loop f d s' r b fin); cbn in *; intuition congruence.
      + split; [split; auto|auto].
    - destruct M as [M1 M2]. apply rq_end_good; [split; tauto|auto].
    - destruct M as [M1 M2]. split; [split; tauto|]. split; [auto|tauto].
    - destruct M as [M1 M2]. split; [split; tauto|]. split; [auto|right; auto].
    - contradiction. }
  destruct p as [|x p]; [destruct busy|].
  - apply T. right; auto.
  - apply rq_end_good; [split; auto|auto].
  - apply T. left; discriminate.
Qed.

Lemma read_request_good d s p fin : ctx_ok (d_ctx d) -> sec_ok (d_ctx d) s -> bytes p ->
  rq_good d s (read_request d s p fin).
Proof.
  intros W S Hb. unfold read_request. destruct (bad (d_ctx d)).
  - split; [auto|]. split; [auto|]. auto.
  - apply rq_loop_good; auto; discriminate.
Qed.

(* ---- histories ---- *)
Record winv (w : dworld) : Prop := {
  wi_es : es_inv (w_dec w);
  wi_str : forall id, 0 <= id < 2 ^ 62 -> sec_ok (d_ctx (w_dec w)) (sget (w_str w) id) /\ s_id (sget (w_str w) id) = id;
  wi_wr : 0 <= d_written (w_dec w) <= next_absidx (d_ctx (w_dec w));
  wi_db : zlen (d_dbuf (w_dec w)) <= Z.max (d_maxconc (w_dec w)) 100 * 20 + 10
}.
Lemma winv_init hard blocked : 0 <= hard -> winv (dw_init hard blocked).
Proof.
  intros H. constructor.
  - apply es_inv_init; auto.
  - intros id _. split; [|reflexivity]. split; [apply rs_inv_init|exact I].
  - cbn; lia.
  - cbn [w_dec dw_init d_dbuf dec_init d_maxconc]. rewrite zlen_nil; lia.
Qed.
Lemma sget_sput l id s i : sget (sput l id s) i = if id =? i then s else sget l i.
Proof. reflexivity. Qed.

Lemma put_len N first n : 3 <= N <= 8 -> is_byte first -> 0 <= n < 2 ^ 62 -> zlen (q_put_varint first n N) <= 10.
Proof. intros A B C. destruct (q_put_varint_first N first n ltac:(lia) B C) as (t & _ & _ & _ & _ & L). exact L. Qed.

Lemma fin_cases d s d' : read_request_fin d s = Ok d' -> 0 <= s_id s < 2 ^ 62 ->
  d_ctx d' = d_ctx d /\ d_state d' = d_state d /\ d_op d' = d_op d /\ d_rs d' = d_rs d /\ d_maxconc d' = d_maxconc d /\
  if s_ricnt s =? 0 then d_dbuf d' = d_dbuf d /\ d_written d' = d_written d
  else d_dbuf d' = d_dbuf d ++ q_put_varint 128 (s_id s) 7 /\ d_written d' = Z.max (d_written d) (s_ricnt s) /\
       zlen (d_dbuf d) <= Z.max (d_maxconc d) 100 * 20.
Proof.
  intros H Hid. unfold read_request_fin in H. destruct (s_state s); try discriminate.
  destruct (s_ricnt s =? 0).
  - injection H as <-. cbn. auto 10.
  - unfold write_section_ack in H. destruct (dbuf_overflow d) eqn:O; [discriminate|]. injection H as <-. cbn.
    unfold dbuf_overflow in O. repeat split; auto; [|lia]. destruct (Z.ltb_spec (d_written d) (s_ricnt s)); lia.
Qed.

Lemma dstep_winv w o : winv w -> dop_ok o ->
  exists w' r, dstep w o = Some (w', r) /\ winv w' /\ ctx_le (d_ctx (w_dec w)) (d_ctx (w_dec w')).
Proof.
  intros [I1 I2 I3 I4] Ho. destruct o as [src|id src fin|id|id| |n]; cbn [dstep dop_ok] in *.
  - pose proof (read_encoder_ok (w_dec w) src I1 Ho) as R. destruct (read_encoder (w_dec w) src) as [d' r].
    destruct R as (R1 & R2 & R3 & R4 & R5 & R6).
    assert (W' : winv (mk_dw d' (w_str w))).
    { constructor; cbn [w_dec w_str]; auto.
      - intros i Hi. destruct (I2 i Hi). split; [eapply sec_ok_le; eauto|auto].
      - destruct R5; lia.
      - rewrite R2, R4; auto. }
    destruct r as [n|e|]; [eauto|eauto|congruence].
  - destruct Ho as [Hb Hid]. destruct (I2 id Hid) as [Sk Si].
    assert (Wc : ctx_ok (d_ctx (w_dec w))) by apply I1.
    pose proof (read_request_good (w_dec w) _ src fin Wc Sk Hb) as G.
    assert (P : forall d' s', sec_ok (d_ctx d') s' -> s_id s' = id -> ctx_le (d_ctx (w_dec w)) (d_ctx d') ->
      es_inv d' -> 0 <= d_written d' <= next_absidx (d_ctx d') ->
      zlen (d_dbuf d') <= Z.max (d_maxconc d') 100 * 20 + 10 -> winv (mk_dw d' (sput (w_str w) id s'))).
    { intros d' s' A1 A2 A3 A4 A5 A6. constructor; cbn [w_dec w_str]; auto.
      intros i Hi. rewrite sget_sput. destruct (Z.eqb_spec id i) as [<-|N]; [auto|].
      destruct (I2 i Hi). split; [eapply sec_ok_le; eauto|auto]. }
    destruct (read_request (w_dec w) (sget (w_str w) id) src fin) as [s' v rest|s' rest|s'|d' s'|e d' s'|]; [..|contradiction].
    + destruct G as (G1 & G2 & G3). do 2 eexists; split; [reflexivity|]. cbn. split; [|apply ctx_le_refl].
      apply P; auto; [congruence|apply ctx_le_refl].
    + destruct G as (G1 & G2 & G3). do 2 eexists; split; [reflexivity|]. cbn. split; [|apply ctx_le_refl].
      apply P; auto; [congruence|apply ctx_le_refl].
    + destruct G as (G1 & G2). do 2 eexists; split; [reflexivity|]. cbn. split; [|apply ctx_le_refl].
      apply P; auto; [congruence|apply ctx_le_refl].
    + destruct G as (G1 & G2 & G3 & G4). do 2 eexists; split; [reflexivity|]. cbn [w_dec].
      destruct (fin_cases _ _ _ G4 ltac:(rewrite G2, Si; auto)) as (F1 & F2 & F3 & F4 & F5 & F6).
      rewrite F1. split; [|apply ctx_le_refl].
      assert (Hric : s_ricnt s' <= next_absidx (d_ctx (w_dec w))).
      { destruct G1 as [_ G1]. unfold ric_ok in G1. rewrite G3 in G1. exact G1. }
      apply P; rewrite ?F1; auto.
      * congruence.
      * apply ctx_le_refl.
      * destruct I1 as [J1 J2]. split; [rewrite F1; auto|]. cbv zeta in *. unfold op_val in *. rewrite F1, F2, F3, F4. exact J2.
      * destruct (s_ricnt s' =? 0); destruct F6 as [_ F6]; [rewrite F6; auto|destruct F6; lia].
      * rewrite F5. destruct (s_ricnt s' =? 0); [destruct F6 as [F6 _]; rewrite F6; auto|].
        destruct F6 as (F6 & _ & F7). rewrite F6, zlen_app.
        pose proof (put_len 7 128 (s_id s') ltac:(lia) ltac:(unfold is_byte; lia) ltac:(rewrite G2, Si; auto)). lia.
    + destruct G as (G1 & G2 & G3). do 2 eexists; split; [reflexivity|]. cbn [w_dec].
      destruct G3 as [-> | ->].
      * split; [|apply ctx_le_refl]. apply P; auto; [congruence|apply ctx_le_refl].
      * split; [|apply ctx_le_bad]. apply P; auto. all: try (apply ctx_le_bad); try (apply es_inv_fail; auto); try congruence.
  - do 2 eexists; split; [reflexivity|]. cbn [w_dec]. split; [|apply ctx_le_refl]. constructor; auto; cbn [w_dec w_str].
    intros i Hi. rewrite sget_sput. destruct (Z.eqb_spec id i) as [<-|N]; [|auto].
    split; [split; [apply rs_inv_init|exact I]|reflexivity].
  - unfold dec_cancel_stream. change (2 ^ 62) with 4611686018427387904 in Ho. unfold max_varint.
    destruct (Z.ltb_spec id 0); [lia|]. destruct (Z.gtb_spec id 4611686018427387903); [lia|]. cbn [orb].
    destruct (dbuf_overflow (w_dec w)) eqn:O.
    + do 2 eexists; split; [reflexivity|]. split; [constructor; auto|apply ctx_le_refl].
    + do 2 eexists; split; [reflexivity|]. split; [constructor; auto; cbn [w_dec d_set_dbuf d_dbuf d_maxconc]|apply ctx_le_refl].
      unfold dbuf_overflow in O. rewrite zlen_app.
      pose proof (put_len 6 64 id ltac:(lia) ltac:(unfold is_byte; lia) Ho). lia.
  - unfold write_decoder. rewrite Z.ltb_irrefl. destruct (d_written (w_dec w) <? next_absidx (d_ctx (w_dec w))) eqn:L.
    + do 2 eexists; split; [reflexivity|]. split; [constructor; auto; cbn|apply ctx_le_refl]; lia.
    + do 2 eexists; split; [reflexivity|]. split; [constructor; auto; cbn|apply ctx_le_refl]; lia.
  - do 2 eexists; split; [reflexivity|]. cbn [w_dec]. split; [|apply ctx_le_refl]. constructor; auto; cbn [w_dec w_str].
    cbn [d_dbuf d_maxconc dec_set_max_concurrent]. lia.
Qed.

Lemma drun_winv ops : forall w, winv w -> Forall dop_ok ops ->
  exists w' tr, drun w ops = Some (w', tr) /\ winv w' /\ ctx_le (d_ctx (w_dec w)) (d_ctx (w_dec w')).
Proof.
  induction ops as [|o ops IH]; intros w Hw Ho; cbn [drun].
  - do 2 eexists; split; [reflexivity|]. split; [auto|apply ctx_le_refl].
  - inversion Ho; subst. destruct (dstep_winv w o Hw H1) as (w1 & r & -> & Hw1 & L1).
    destruct (IH w1 Hw1 H2) as (w2 & tr & -> & Hw2 & L2).
    do 2 eexists; split; [reflexivity|]. split; [auto|eapply ctx_le_trans; eauto].
Qed.

(* ---- C18: what the decoder stream says ---- *)
Lemma rfc_int_cont_app l : forall v r x, rfc_int_cont l = Some (v, r) -> rfc_int_cont (l ++ x) = Some (v, r ++ x).
Proof.
  induction l as [|b l IH]; intros v r x; cbn [rfc_int_cont app]; [discriminate|].
  destruct (b <? 128); [intros H; injection H as <- <-; auto|].
  destruct (rfc_int_cont l) as [[v' r']|] eqn:E; [|discriminate].
  intros H. apply some_pair_inj in H as [<- <-]. rewrite (IH _ _ x eq_refl). auto.
Qed.
Lemma rfc_int_app N l v r x : rfc_int N l = Some (v, r) -> rfc_int N (l ++ x) = Some (v, r ++ x).
Proof.
  destruct l as [|b l]; cbn [rfc_int app]; [discriminate|]. cbv zeta.
  destruct (_ <? _); [intros H; injection H as <- <-; auto|].
  destruct (rfc_int_cont l) as [[v' r']|] eqn:E; [|discriminate].
  intros H. apply some_pair_inj in H as [<- <-]. rewrite (rfc_int_cont_app _ _ _ x E). auto.
Qed.
Lemma rfc_dinstr_app l i r x : rfc_dinstr l = Some (i, r) -> rfc_dinstr (l ++ x) = Some (i, r ++ x).
Proof.
  destruct l as [|b l]; [discriminate|]. unfold rfc_dinstr. cbn [app]. intros H.
  change (b :: l ++ x) with ((b :: l) ++ x).
  destruct (128 <=? b); [|destruct (64 <=? b)];
    (match type of H with match ?R with _ => _ end = _ => destruct R as [[v' r']|] eqn:E; [|discriminate] end;
     apply some_pair_inj in H as [<- <-]; rewrite (rfc_int_app _ _ _ _ x E); auto).
Qed.
Lemma rfc_dstream_app a ia b ib : rfc_dstream a ia -> rfc_dstream b ib -> rfc_dstream (a ++ b) (ia ++ ib).
Proof.
  intros H Hb. induction H as [|l i r il E H IH]; cbn [app]; [auto|].
  econstructor; [apply rfc_dinstr_app; eauto|auto].
Qed.
Lemma put_dinstr first N n i : (first = 128 /\ N = 7 /\ i = IAck n) \/ (first = 64 /\ N = 6 /\ i = ICancel n) \/ (first = 0 /\ N = 6 /\ i = IInc n) ->
  0 <= n < 2 ^ 62 -> rfc_dstream (q_put_varint first n N) [i].
Proof.
  intros H Hn. apply rd_cons with (r := []); [|constructor].
  destruct H as [(-> & -> & ->)|[(-> & -> & ->)|(-> & -> & ->)]].
  - destruct (q_put_varint_first 7 128 n ltac:(lia) ltac:(unfold is_byte; lia) Hn) as (t & E & _ & _ & R & _).
    specialize (R []). rewrite app_nil_r in R. unfold rfc_dinstr. rewrite E in *. rewrite R.
    change (128 / 2 ^ 7 * 2 ^ 7) with 128. change (2 ^ 7 - 1) with 127.
    destruct (Z.leb_spec 128 (128 + Z.min n 127)); [auto|lia].
  - destruct (q_put_varint_first 6 64 n ltac:(lia) ltac:(unfold is_byte; lia) Hn) as (t & E & _ & _ & R & _).
    specialize (R []). rewrite app_nil_r in R. unfold rfc_dinstr. rewrite E in *. rewrite R.
    change (64 / 2 ^ 6 * 2 ^ 6) with 64. change (2 ^ 6 - 1) with 63.
    destruct (Z.leb_spec 128 (64 + Z.min n 63)); [lia|].
    destruct (Z.leb_spec 64 (64 + Z.min n 63)); [auto|lia].
  - destruct (q_put_varint_first 6 0 n ltac:(lia) ltac:(unfold is_byte; lia) Hn) as (t & E & _ & _ & R & _).
    specialize (R []). rewrite app_nil_r in R. unfold rfc_dinstr. rewrite E in *. rewrite R.
    change (0 / 2 ^ 6 * 2 ^ 6) with 0. change (2 ^ 6 - 1) with 63.
    destruct (Z.leb_spec 128 (0 + Z.min n 63)); [lia|].
    destruct (Z.leb_spec 64 (0 + Z.min n 63)); [lia|auto].
Qed.

Lemma flushed_app a b : flushed (a ++ b) = flushed a ++ flushed b.
Proof. induction a as [|[o [e| |v r|r|i n|l]] a IH]; cbn [flushed app]; auto. rewrite IH, app_assoc; auto. Qed.
Lemma completed_app a b : completed (a ++ b) = completed a ++ completed b.
Proof.
  induction a as [|[o [e| |v r|r|i n|l]] a IH]; cbn [completed app]; auto.
  destruct (n =? 0); rewrite IH; auto.
Qed.
Lemma cancelled_app a b : cancelled (a ++ b) = cancelled a ++ cancelled b.
Proof. induction a as [|[[s|i s f|i|i| |m] [e| |v r|r|j n|l]] a IH]; cbn [cancelled app]; auto. rewrite IH; auto. Qed.
Lemma acks_app a b : acks (a ++ b) = acks a ++ acks b.
Proof. induction a as [|[i|i|n] a IH]; cbn [acks app]; rewrite ?IH; auto. Qed.
Lemma cancels_app a b : cancels (a ++ b) = cancels a ++ cancels b.
Proof. induction a as [|[i|i|n] a IH]; cbn [cancels app]; rewrite ?IH; auto. Qed.
Lemma known_app a : forall k secs x b, length secs = length (acks a) ->
  known k (a ++ b) (secs ++ x) = known (known k a secs) b x.
Proof.
  induction a as [|[i|i|n] a IH]; intros k secs x b H; cbn [known acks app] in *.
  - destruct secs; [auto|discriminate].
  - destruct secs as [|s secs]; [discriminate|]. cbn [app]. apply IH. cbn in H; lia.
  - apply IH; auto.
  - apply IH; auto.
Qed.
Lemma known_mono il : forall k secs, Forall (fun i => match i with IInc n => 0 <= n | _ => True end) il ->
  k <= known k il secs.
Proof.
  induction il as [|[i|i|n] il IH]; intros k secs H; cbn [known]; [lia|..]; inversion H; subst.
  - destruct secs as [|s secs]; [apply IH; auto|]. specialize (IH (Z.max k s) secs H3). lia.
  - auto.
  - specialize (IH (k + n) secs H3). lia.
Qed.

Record ginv (tr : list (dop * dres)) (w : dworld) : Prop := {
  gi_ex : exists il pend,
    rfc_dstream (flushed tr) il /\ rfc_dstream (d_dbuf (w_dec w)) pend /\
    acks (il ++ pend) = map fst (completed tr) /\ cancels (il ++ pend) = cancelled tr /\
    known 0 (il ++ pend) (map snd (completed tr)) = d_written (w_dec w) /\
    Forall (fun i => match i with IInc n => 0 < n | _ => True end) (il ++ pend)
}.

Lemma ginv_snoc_same tr w o r w' : ginv tr w -> d_dbuf (w_dec w') = d_dbuf (w_dec w) ->
  d_written (w_dec w') = d_written (w_dec w) -> flushed [(o, r)] = [] -> completed [(o, r)] = [] ->
  cancelled [(o, r)] = [] -> ginv (tr ++ [(o, r)]) w'.
Proof.
  intros [(il & pend & H)] E1 E2 F1 F2 F3. constructor. exists il, pend.
  rewrite flushed_app, completed_app, cancelled_app, F1, F2, F3, !app_nil_r, E1, E2. exact H.
Qed.

Lemma dstep_ginv tr w o w' r : winv w -> dop_ok o -> next_absidx (d_ctx (w_dec w)) < 2 ^ 62 ->
  ginv tr w -> dstep w o = Some (w', r) -> ginv (tr ++ [(o, r)]) w'.
Proof.
  intros W Ho Hn G H. pose proof W as [I1 I2 I3 I4]. destruct o as [src|id src fin|id|id| |n]; cbn [dstep dop_ok] in *.
  - pose proof (read_encoder_ok (w_dec w) src I1 Ho) as R. destruct (read_encoder (w_dec w) src) as [d' r'].
    destruct R as (R1 & R2 & R3 & R4 & R5 & R6).
    destruct r'; [| |discriminate]; injection H as <- <-; eapply ginv_snoc_same; eauto.
  - destruct Ho as [Hb Hid]. destruct (I2 id Hid) as [Sk Si].
    pose proof (read_request_good (w_dec w) _ src fin (proj1 I1) Sk Hb) as Gd.
    destruct (read_request (w_dec w) (sget (w_str w) id) src fin) as [s' v rest|s' rest|s'|d' s'|e d' s'|]; [..|discriminate];
      injection H as <- <-.
    1,2,3: eapply ginv_snoc_same; eauto.
    + destruct Gd as (G1 & G2 & G3 & G4).
      destruct (fin_cases _ _ _ G4 ltac:(rewrite G2, Si; auto)) as (F1 & F2 & F3 & F4 & F5 & F6).
      destruct (s_ricnt s' =? 0) eqn:Z0.
      * eapply ginv_snoc_same; eauto; cbn [w_dec completed]; try tauto. rewrite Z0; auto.
      * destruct G as [(il & pend & Q1 & Q2 & Q3 & Q4 & Q5 & Q6)]. constructor. exists il, (pend ++ [IAck id]).
        destruct F6 as (F6 & F7 & _). cbn [w_dec].
        rewrite flushed_app, completed_app, cancelled_app. cbn [flushed completed cancelled]. rewrite Z0, !app_nil_r, F6, F7.
        split; [auto|]. split; [apply rfc_dstream_app; [auto|]; rewrite G2, Si; apply put_dinstr; auto|].
        rewrite !app_assoc, acks_app, cancels_app, Q3, Q4, !map_app. cbn [acks cancels map fst snd]. rewrite app_nil_r.
        split; [auto|]. split; [auto|]. split.
        -- rewrite known_app by (rewrite map_length, Q3, map_length; auto). rewrite Q5. cbn [known]. auto.
        -- apply Forall_app; split; [auto|]. constructor; auto.
    + destruct Gd as (G1 & G2 & [-> | ->]); eapply ginv_snoc_same; eauto.
  - injection H as <- <-. eapply ginv_snoc_same; eauto.
  - unfold dec_cancel_stream in H. destruct ((id <? 0) || (id >? max_varint)); [discriminate|].
    destruct (dbuf_overflow (w_dec w)); injection H as <- <-; [eapply ginv_snoc_same; eauto|].
    destruct G as [(il & pend & Q1 & Q2 & Q3 & Q4 & Q5 & Q6)]. constructor. exists il, (pend ++ [ICancel id]).
    rewrite flushed_app, completed_app, cancelled_app. cbn [flushed completed cancelled w_dec d_set_dbuf d_dbuf d_written]. rewrite !app_nil_r.
    split; [auto|]. split; [apply rfc_dstream_app; [auto|]; apply put_dinstr; auto|].
    rewrite !app_assoc, acks_app, cancels_app, Q3, Q4. cbn [acks cancels]. rewrite app_nil_r.
    split; [auto|]. split; [auto|]. split.
    + replace (map snd (completed tr)) with (map snd (completed tr) ++ []) by apply app_nil_r.
      rewrite known_app by (rewrite map_length, Q3, map_length; auto). rewrite Q5. reflexivity.
    + apply Forall_app; split; [auto|]. constructor; auto.
  - unfold write_decoder in H. rewrite Z.ltb_irrefl in H.
    destruct G as [(il & pend & Q1 & Q2 & Q3 & Q4 & Q5 & Q6)].
    destruct (Z.ltb_spec (d_written (w_dec w)) (next_absidx (d_ctx (w_dec w)))) as [L|L]; injection H as <- <-; constructor.
    + exists (il ++ pend ++ [IInc (next_absidx (d_ctx (w_dec w)) - d_written (w_dec w))]), [].
      rewrite flushed_app, completed_app, cancelled_app. cbn [flushed completed cancelled w_dec d_set_dbuf d_dbuf d_written]. rewrite !app_nil_r.
      split; [apply rfc_dstream_app; auto; apply rfc_dstream_app; [auto|]; apply put_dinstr; [auto|lia]|].
      split; [constructor|]. rewrite app_assoc, acks_app, cancels_app, Q3, Q4. cbn [acks cancels]. rewrite !app_nil_r.
      split; [auto|]. split; [auto|]. split.
      * replace (map snd (completed tr)) with (map snd (completed tr) ++ []) by apply app_nil_r.
        rewrite known_app by (rewrite map_length, Q3, map_length; auto). rewrite Q5. cbn [known]. lia.
      * apply Forall_app; split; [auto|]. constructor; [lia|auto].
    + exists (il ++ pend), []. rewrite flushed_app, completed_app, cancelled_app. cbn [flushed completed cancelled w_dec d_set_dbuf d_dbuf d_written]. rewrite !app_nil_r.
      split; [apply rfc_dstream_app; auto|]. split; [constructor|]. auto.
  - injection H as <- <-. eapply ginv_snoc_same; eauto.
Qed.

Lemma drun_ginv ops : forall w tr0 w' tr, winv w -> Forall dop_ok ops -> ginv tr0 w ->
  drun w ops = Some (w', tr) -> next_absidx (d_ctx (w_dec w')) < 2 ^ 62 -> ginv (tr0 ++ tr) w'.
Proof.
  induction ops as [|o ops IH]; intros w tr0 w' tr Hw Ho G H Hn; cbn [drun] in H.
  - injection H as <- <-. rewrite app_nil_r; auto.
  - inversion Ho; subst. destruct (dstep_winv w o Hw H2) as (w1 & r & E & Hw1 & L1). rewrite E in H.
    destruct (drun_winv ops w1 Hw1 H3) as (w2 & tr2 & E2 & Hw2 & L2). rewrite E2 in H. injection H as <- <-.
    assert (Hn1 : next_absidx (d_ctx (w_dec w)) < 2 ^ 62) by (destruct L1, L2; lia).
    replace (tr0 ++ (o, r) :: tr2) with ((tr0 ++ [(o, r)]) ++ tr2) by (rewrite <- app_assoc; auto).
    exact (IH w1 _ _ _ Hw1 H3 (dstep_ginv tr0 w o w1 r Hw H2 Hn1 G E) E2 Hn).
Qed.

Lemma rfc_dstream_fun a il : rfc_dstream a il -> forall il', rfc_dstream a il' -> il = il'.
Proof.
  induction 1 as [|l i r il E H IH]; intros il' H'; inversion H'; subst; auto.
  - discriminate.
  - discriminate.
  - rewrite E in H0. injection H0 as <- <-. f_equal; auto.
Qed.

Lemma decoder_stream_counts hard blocked ops w tr :
  0 <= hard -> Forall dop_ok ops -> drun (dw_init hard blocked) ops = Some (w, tr) -> insert_count w < 2 ^ 62 ->
  exists il, rfc_dstream (flushed tr) il /\
    (exists rest, acks il ++ rest = map fst (completed tr)) /\
    (exists rest, cancels il ++ rest = cancelled tr) /\
    known 0 il (map snd (completed tr)) <= insert_count w /\
    (forall tr' l, tr = tr' ++ [(DFlush, DrBytes l)] ->
       acks il = map fst (completed tr) /\ cancels il = cancelled tr /\
       known 0 il (map snd (completed tr)) = insert_count w).
Proof.
  intros Hh Ho E Hn. unfold insert_count in *.
  assert (G0 : ginv [] (dw_init hard blocked)).
  { constructor. exists [], []. repeat split; try constructor; auto. }
  pose proof (drun_ginv ops _ [] _ _ (winv_init hard blocked Hh) Ho G0 E Hn) as [(il & pend & Q1 & Q2 & Q3 & Q4 & Q5 & Q6)].
  cbn [app] in *.
  destruct (drun_winv ops _ (winv_init hard blocked Hh) Ho) as (w2 & tr2 & E2 & W2 & _).
  rewrite E in E2. injection E2 as <- <-. pose proof (wi_wr w W2) as Wr.
  exists il. split; [auto|]. rewrite acks_app in Q3. rewrite cancels_app in Q4.
  split; [eauto|]. split; [eauto|]. split.
  - apply Forall_app in Q6 as [Q6 Q7].
    assert (K : known 0 il (map snd (completed tr)) <= known 0 (il ++ pend) (map snd (completed tr))).
    { set (secs := map snd (completed tr)) in *.
      assert (L : (length (acks il) <= length secs)%nat).
      { apply (f_equal (@length Z)) in Q3. rewrite app_length, !map_length in *. unfold secs. rewrite map_length. lia. }
      rewrite <- (firstn_skipn (length (acks il)) secs).
      assert (L1 : length (firstn (length (acks il)) secs) = length (acks il)) by (rewrite firstn_length; lia).
      rewrite known_app by auto.
      assert (K1 : known 0 il (firstn (length (acks il)) secs ++ skipn (length (acks il)) secs) = known 0 il (firstn (length (acks il)) secs)).
      { replace il with (il ++ []) at 1 by apply app_nil_r. rewrite known_app by auto. reflexivity. }
      rewrite K1. apply known_mono. eapply Forall_impl; [|exact Q7]. intros [| |n]; auto; lia. }
    lia.
  - intros tr' l Et.
    destruct ops as [|o0 ops0] using rev_ind.
    { cbn in E. injection E as <- <-. destruct tr'; discriminate. }
    clear IHops0.
    (* the last operation was a flush *)
    assert (S : forall ops w0 w1 tr1, drun w0 (ops ++ [o0]) = Some (w1, tr1) ->
      exists wm trm r, drun w0 ops = Some (wm, trm) /\ dstep wm o0 = Some (w1, r) /\ tr1 = trm ++ [(o0, r)]).
    { clear. induction ops as [|o ops IH]; intros w0 w1 tr1; cbn [drun app].
      - destruct (dstep w0 o0) as [[w' r]|] eqn:D; [|discriminate]. intros H; injection H as <- <-. do 3 eexists; eauto.
      - destruct (dstep w0 o) as [[w' r]|]; [|discriminate].
        destruct (drun w' (ops ++ [o0])) as [[w2 tr2]|] eqn:D; [|discriminate].
        intros H; injection H as <- <-. destruct (IH _ _ _ D) as (wm & trm & r' & -> & D2 & ->).
        do 3 eexists; split; [reflexivity|]. split; [eauto|reflexivity]. }
    destruct (S _ _ _ _ E) as (wm & trm & r & Dm & Ds & Etr). rewrite Et in Etr.
    apply app_inj_tail in Etr as [-> Er]. injection Er as <- <-.
    cbn [dstep] in Ds. unfold write_decoder in Ds. rewrite Z.ltb_irrefl in Ds.
    assert (D0 : d_dbuf (w_dec w) = [] /\ next_absidx (d_ctx (w_dec w)) <= d_written (w_dec w)).
    { destruct (Z.ltb_spec (d_written (w_dec wm)) (next_absidx (d_ctx (w_dec wm)))); injection Ds as <- _; cbn; split; auto; lia. }
    destruct D0 as [D0 D1]. rewrite D0 in Q2. inversion Q2; subst; [|discriminate].
    cbn [acks cancels] in Q3, Q4. rewrite !app_nil_r in *. split; [auto|split; [auto|lia]].
Qed.

Lemma flush_len w w' l : winv w -> insert_count w < 2 ^ 62 -> dstep w DFlush = Some (w', DrBytes l) ->
  zlen l = get_decoder_streamlen (w_dec w).
Proof.
  intros W Hn H. pose proof (wi_wr w W). unfold insert_count in *.
  cbn [dstep] in H. unfold write_decoder in H. rewrite Z.ltb_irrefl in H. unfold get_decoder_streamlen.
  destruct (Z.ltb_spec (d_written (w_dec w)) (next_absidx (d_ctx (w_dec w)))); injection H as <- <-.
  - rewrite zlen_app. destruct (q_put_varint_first 6 0 (next_absidx (d_ctx (w_dec w)) - d_written (w_dec w))) as (t & _ & _ & E & _);
      [lia|unfold is_byte; lia|lia|]. lia.
  - lia.
Qed.
