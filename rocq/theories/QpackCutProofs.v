From Verif Require Import Base BaseLemmas Tables QpackIntModel QpackIntSpec QpackIntProofs
  HuffModel HuffSpec HuffProofs QpackTabModel QpackTabSpec QpackTabProofs QpackDynSpec QpackDynProofs
  Chunk QpackDecModel QpackReadProofs QpackDecProofs QpackSecProofs QpackHistModel QpackHistSpec QpackHistProofs.

Lemma rs_step_evs c s p :
  match rs_step c s p with
  | SGo s' rest busy ev => ev = [] \/ exists v, ev = [v] /\ busy = false /\ s_state s' = RsOpcode
  | SMore _ ev | SStop _ _ ev | SErr _ _ ev => ev = []
  | SAbort => True
  end.
Proof.
  assert (EM : forall s v r, (([v] : list qnv) = [] \/ exists v', ([v] : list qnv) = [v'] /\ false = false /\ s_state (s_set s RsOpcode r) = RsOpcode))
    by (intros; right; eexists; split; [reflexivity|auto]).
  unfold rs_step, rs_read_ricnt, rs_read_dbase, rs_read_index, rs_read_namelen, rs_read_valuelen, rs_read_name,
    rs_read_value, rs_opcode_step, rs_emit, rs_fail.
  destruct (s_state s).
  - destruct (q_read_varint _ _ _ _) as [[[[l sh] r] [|]]|e|]; auto. destruct (reconstruct_ricnt c l); auto.
  - destruct p as [|b p]; [auto|]. cbv zeta. destruct (q_read_varint _ _ _ _) as [[[[l sh] r] [|]]|e|]; auto.
    destruct (_ && _); auto. destruct (_ >? _); auto.
  - destruct (q_read_varint _ _ _ _) as [[[[l sh] r] [|]]|e|]; auto.
    destruct (_ && _); auto. cbv zeta. destruct (_ >? _); auto.
  - destruct p as [|b p]; [auto|]. cbv zeta. destruct (_ || _); [auto|].
    repeat (match goal with |- context [if ?X then _ else _] => destruct X end); auto.
  - destruct (q_read_varint _ _ _ _) as [[[[l sh] r] [|]]|e|]; auto. cbv zeta.
    match goal with |- context [match ?X with Ok _ => _ | Err _ => _ | Abort => _ end] => destruct X as [r'|e|]; auto end.
    destruct (s_op s); try (destruct (emit_indexed c r')); auto.
  - destruct p as [|b p]; [auto|].
    destruct (q_read_varint _ _ _ _) as [[[[l sh] r] [|]]|e|]; auto. destruct (l >? MAX_NAMELEN); auto.
  - destruct (q_read_varint _ _ _ _) as [[[[l sh] r] [|]]|e|]; auto. destruct (l >? MAX_NAMELEN); auto.
  - destruct (read_str _ _ _ _ _ _) as [[[[l f] nm] r]|e|]; auto. cbv zeta. destruct (negb _); auto.
  - destruct (read_str _ _ _ _ _ _) as [[[[l f] nm] r]|e|]; auto. cbv zeta. destruct (negb _); auto.
  - destruct p as [|b p]; [auto|].
    destruct (q_read_varint _ _ _ _) as [[[[l sh] r] [|]]|e|]; auto. destruct (l >? MAX_VALUELEN); auto.
  - destruct (q_read_varint _ _ _ _) as [[[[l sh] r] [|]]|e|]; auto. destruct (l >? MAX_VALUELEN); auto.
  - destruct (read_str _ _ _ _ _ _) as [[[[l f] nm] r]|e|]; auto. cbv zeta. destruct (negb _); auto.
    match goal with |- context [match ?X with Ok _ => _ | Err _ => _ | Abort => _ end] => destruct X as [r'|e|]; auto end.
  - destruct (read_str _ _ _ _ _ _) as [[[[l f] nm] r]|e|]; auto. cbv zeta. destruct (negb _); auto.
    match goal with |- context [match ?X with Ok _ => _ | Err _ => _ | Abort => _ end] => destruct X as [r'|e|]; auto end.
  - destruct (_ >? _); auto.
Qed.

(* the result of a section from the result of the uninterrupted reader *)
Definition sec_result (d : dec) (fin : bool) (r : rres sctx qnv) : list qnv * rq_res :=
  match r with
  | ROk s' evs => (evs, rq_end d s' fin)
  | RStop s' rest evs => (evs, RqBlocked s' rest)
  | RErr e s' evs => (evs, RqErr e (d_fail d) s')
  | RAbort => ([], RqAbort)
  end.

Lemma rq_loop_run f : forall d s p busy fin, ctx_ok (d_ctx d) -> rs_inv s -> bytes p ->
  (busy = true -> rs_ce s) -> (measure 8 rs_rank s p < f)%nat ->
  let R := run (rs_step (d_ctx d)) 8 rs_rank s p busy in
  match rq_loop f d s p busy fin with
  | RqEmit s' v rest => R = rev_ [v] (rs_run (d_ctx d) s' rest) /\ rs_inv s' /\ bytes rest /\
      s_state s' = RsOpcode /\ (measure 8 rs_rank s' rest < measure 8 rs_rank s p)%nat
  | r => sec_result d fin R = ([], r)
  end.
Proof.
  induction f as [|f IH]; intros d s p busy fin W Hi Hb Hc Hm R; [lia|].
  assert (RE : forall s', match rq_end d s' fin with
    | RqEmit _ _ _ => False | r => sec_result d fin (ROk s' []) = ([], r) end).
  { intros s'. unfold sec_result, rq_end. destruct fin; [|auto]. destruct (read_request_fin d s'); auto. }
  assert (T : p <> [] \/ busy = true -> match (match rs_step (d_ctx d) s p with
      | SGo s' rest b [] => rq_loop f d s' rest b fin
      | SGo s' rest b (v :: _) => RqEmit s' v rest
      | SMore s' _ => rq_end d s' fin
      | SStop s' rest _ => RqBlocked s' rest
      | SErr e s' _ => RqErr e (d_fail d) s'
      | SAbort => RqAbort
      end) with RqEmit s' v rest => R = rev_ [v] (rs_run (d_ctx d) s' rest) /\ rs_inv s' /\ bytes rest /\
      s_state s' = RsOpcode /\ (measure 8 rs_rank s' rest < measure 8 rs_rank s p)%nat
  | r => sec_result d fin R = ([], r) end).
  { intros N. unfold R. rewrite (run_turn (rs_step (d_ctx d)) 8 rs_rank rs_inv rs_ce (rs_step_sok (d_ctx d) W)) by auto.
    assert (Rn : runnable rs_ce s p) by (destruct N; [left; auto|right; auto]).
    pose proof (rs_step_sok (d_ctx d) W s p Hi Hb Rn) as K. pose proof (rs_step_evs (d_ctx d) s p) as M. unfold turn.
    destruct (rs_step (d_ctx d) s p) as [s' r b ev|s' ev|s' r ev|e s' ev|]; unfold rs_sok, step_ok in K.
    - destruct K as (K1 & K2 & K3 & K4 & _). destruct M as [->|(v & -> & -> & M)].
      + rewrite rev_nil. pose proof (IH d s' r b fin W K1 K2 K4 ltac:(lia)) as G. cbv zeta in G.
        destruct (rq_loop f d s' r b fin); auto. destruct G as (G1 & G2 & G3 & G4 & G5).
        split; [exact G1|]. split; [exact G2|]. split; [exact G3|]. split; [exact G4|lia].
      + split; [reflexivity|]. split; [exact K1|]. split; [exact K2|]. split; [exact M|exact K3].
    - subst ev. specialize (RE s'). destruct (rq_end d s' fin); auto; contradiction.
    - subst ev; auto.
    - subst ev; auto.
    - contradiction. }
  destruct p as [|x p]; [destruct busy|].
  - apply T; auto.
  - cbn [rq_loop]. unfold R. rewrite run_nil. specialize (RE s). destruct (rq_end d s fin); auto; contradiction.
  - apply T. left; discriminate.
Qed.

Lemma sec_result_rev d fin v r : sec_result d fin (rev_ [v] r) =
  let (vs, x) := sec_result d fin r in (match x with RqAbort => match r with RAbort => vs | _ => v :: vs end | _ => v :: vs end, x).
Proof. destruct r as [s' e|s' rest e|e s' ev|]; cbn; auto. destruct (rq_end d s' fin); auto. Qed.

Lemma rq_end_no_abort d s fin : rq_end d s fin <> RqAbort.
Proof.
  unfold rq_end, read_request_fin, write_section_ack. destruct fin; [|discriminate]. destruct (s_state s); try discriminate.
  destruct (s_ricnt s =? 0); [discriminate|]. destruct (dbuf_overflow d); discriminate.
Qed.
Lemma decode_all_run f : forall d s p fin, ctx_ok (d_ctx d) -> bad (d_ctx d) = false -> rs_inv s -> bytes p ->
  ((match s_state s with RsOpcode => length p | _ => S (length p) end) < f)%nat ->
  decode_all f d s p fin = sec_result d fin (rs_run (d_ctx d) s p).
Proof.
  induction f as [|f IH]; intros d s p fin W B Hi Hb Hf; [lia|]. cbn [decode_all]. unfold read_request. rewrite B.
  pose proof (rq_loop_run (S (8 * length p + rs_rank s)) d s p false fin W Hi Hb ltac:(discriminate) ltac:(unfold measure; lia)) as G.
  cbv zeta in G. fold (rs_run (d_ctx d) s p) in G.
  destruct (rq_loop _ d s p false fin) as [s' v rest|s' rest|s'|d' s'|e d' s'|]; auto.
  destruct G as (G1 & G2 & G3 & G4 & G5). rewrite (IH d s' rest fin W B G2 G3), G1.
  - pose proof (run_good (rs_step (d_ctx d)) 8 rs_rank rs_inv rs_ce (rs_step_sok (d_ctx d) W) s' rest false G2 G3 ltac:(discriminate)) as Gd.
    fold (rs_run (d_ctx d) s' rest) in Gd. rewrite sec_result_rev.
    destruct (rs_run (d_ctx d) s' rest); cbn [sec_result]; auto; [|contradiction].
    destruct (rq_end d s0 fin) eqn:E; auto.
  - rewrite G4. unfold measure, rs_rank in G5. rewrite G4 in G5. destruct (s_state s); lia.
Qed.

Lemma decode_section_run d s p fin : ctx_ok (d_ctx d) -> bad (d_ctx d) = false -> rs_inv s -> bytes p ->
  decode_section d s p fin = sec_result d fin (rs_run (d_ctx d) s p).
Proof. intros. apply decode_all_run; auto. destruct (s_state s); lia. Qed.

(* ---- cutting a field section ---- *)
Lemma rs_run_app c s a b : ctx_ok c -> rs_inv s -> bytes a -> bytes b ->
  rs_run c s (a ++ b) =
  match rs_run c s a with
  | ROk s' ev => rev_ ev (rs_run c s' b)
  | RStop s' rest ev => RStop s' (rest ++ b) ev
  | RErr e s' ev => RErr e s' ev
  | RAbort => RAbort
  end.
Proof. intros W Hi Ha Hb. apply (run_app (rs_step c) 8 rs_rank rs_inv rs_ce (rs_step_sok c W)); auto; discriminate. Qed.

Lemma decode_section_cut d s a b fin : es_inv d -> bad (d_ctx d) = false -> sec_ok (d_ctx d) s -> bytes a -> bytes b ->
  decode_section d s (a ++ b) fin =
  match decode_section d s a false with
  | (vs, RqNone s') => let (vs', r) := decode_section d s' b fin in (vs ++ vs', r)
  | (vs, RqBlocked s' rest) => (vs, RqBlocked s' (rest ++ b))
  | r => r
  end.
Proof.
  intros W B [Hi _] Ha Hb. destruct W as [W _]. rewrite !decode_section_run by (auto; apply bytes_app; auto).
  rewrite rs_run_app by auto.
  pose proof (run_good (rs_step (d_ctx d)) 8 rs_rank rs_inv rs_ce (rs_step_sok (d_ctx d) W) s a false Hi Ha ltac:(discriminate)) as Gd.
  fold (rs_run (d_ctx d) s a) in Gd.
  destruct (rs_run (d_ctx d) s a) as [s' ev|s' rest ev|e s' ev|]; cbn [sec_result rq_end]; auto.
  rewrite decode_section_run by auto.
  pose proof (run_good (rs_step (d_ctx d)) 8 rs_rank rs_inv rs_ce (rs_step_sok (d_ctx d) W) s' b false Gd Hb ltac:(discriminate)) as Gd'.
  fold (rs_run (d_ctx d) s' b) in Gd'.
  destruct (rs_run (d_ctx d) s' b); cbn [sec_result rev_]; auto; contradiction.
Qed.

(* ---- cutting the encoder stream ---- *)
Lemma es_unint_comm d u g p : es_step (d_count d u g) p =
  match es_step d p with
  | SGo d' r b ev => SGo (d_count d' u g) r b ev
  | SMore d' ev => SMore (d_count d' u g) ev
  | SStop d' r ev => SStop (d_count d' u g) r ev
  | SErr e d' ev => SErr e (d_count d' u g) ev
  | SAbort => SAbort
  end.
Proof.
  unfold es_step, es_read_index, es_read_namelen, es_read_valuelen, es_read_name, es_read_value.
  cbn [d_state d_op d_rs d_ctx d_count].
  destruct (d_state d).
  - destruct p; [auto|]. cbv zeta. repeat (match goal with |- context [if ?X then _ else _] => destruct X end); auto.
  - destruct (q_read_varint _ _ _ _) as [[[[l sh] r] [|]]|e|]; auto. cbv zeta.
    destruct (d_op d); repeat (match goal with |- context [match ?X with Ok _ => _ | Err _ => _ | Abort => _ end] => destruct X; auto end); auto.
  - destruct p; [auto|]. destruct (q_read_varint _ _ _ _) as [[[[l sh] r] [|]]|e|]; auto. destruct (_ >? _); auto.
  - destruct (q_read_varint _ _ _ _) as [[[[l sh] r] [|]]|e|]; auto. destruct (_ >? _); auto.
  - destruct (read_str _ _ _ _ _ _) as [[[[l f] nm] r]|e|]; auto. cbv zeta. destruct (negb _); auto.
  - destruct (read_str _ _ _ _ _ _) as [[[[l f] nm] r]|e|]; auto. cbv zeta. destruct (negb _); auto.
  - destruct p; [auto|]. destruct (q_read_varint _ _ _ _) as [[[[l sh] r] [|]]|e|]; auto. destruct (_ >? _); auto.
  - destruct (q_read_varint _ _ _ _) as [[[[l sh] r] [|]]|e|]; auto. destruct (_ >? _); auto.
  - destruct (read_str _ _ _ _ _ _) as [[[[l f] nm] r]|e|]; auto. cbv zeta. destruct (negb _); auto.
    destruct (d_op d); repeat (match goal with |- context [match ?X with Ok _ => _ | Err _ => _ | Abort => _ end] => destruct X; auto end); auto.
  - destruct (read_str _ _ _ _ _ _) as [[[[l f] nm] r]|e|]; auto. cbv zeta. destruct (negb _); auto.
    destruct (d_op d); repeat (match goal with |- context [match ?X with Ok _ => _ | Err _ => _ | Abort => _ end] => destruct X; auto end); auto.
Qed.
Lemma es_run_unint d u g p : es_run (d_count d u g) p =
  match es_run d p with
  | ROk d' ev => ROk (d_count d' u g) ev
  | RStop d' r ev => RStop (d_count d' u g) r ev
  | RErr e d' ev => RErr e (d_count d' u g) ev
  | RAbort => RAbort
  end.
Proof.
  unfold es_run, run. replace (measure 8 es_rank (d_count d u g) p) with (measure 8 es_rank d p) by reflexivity.
  generalize (S (measure 8 es_rank d p)). intros f. generalize false as busy.
  revert d p. induction f as [|f IH]; intros d p busy.
  - destruct p, busy; cbn; auto.
  - assert (T : turn es_step (d_count d u g) p (run_fuel es_step f) =
      match turn es_step d p (run_fuel es_step f) with
      | ROk d' ev => ROk (d_count d' u g) ev
      | RStop d' r ev => RStop (d_count d' u g) r ev
      | RErr e d' ev => RErr e (d_count d' u g) ev
      | RAbort => RAbort
      end).
    { unfold turn. rewrite es_unint_comm. destruct (es_step d p) as [d1 r b ev| | | |]; auto.
      rewrite IH. destruct (run_fuel es_step f d1 r b); cbn; auto. }
    destruct p, busy; cbn [run_fuel]; auto.
Qed.

Lemma dec_add_bad c n v t c' : dec_add c n v t = Ok c' -> bad c' = bad c.
Proof.
  unfold dec_add, dtable_add. cbv zeta. destruct (_ >? _); [discriminate|]. destruct (evict_loop _ _ _ _) as [[l s]|e|]; try discriminate.
  intros H; injection H as <-. auto.
Qed.
Lemma dec_set_cap_bad c n c' : dec_set_cap c n = Ok c' -> bad c' = bad c.
Proof.
  unfold dec_set_cap. destruct (_ >? _); [discriminate|].
  destruct (evict_loop _ _ _ _) as [[l s]|e|]; try discriminate.
  intros H; injection H as <-. auto.
Qed.
Lemma es_step_bad d p :
  match es_step d p with
  | SGo d' _ _ _ | SMore d' _ | SStop d' _ _ => bad (d_ctx d') = bad (d_ctx d)
  | SErr _ d' _ => bad (d_ctx d') = true
  | SAbort => True
  end.
Proof.
  assert (DI : forall r c', dec_indexed_add (d_ctx d) r = Ok c' -> bad c' = bad (d_ctx d)).
  { intros r c'. unfold dec_indexed_add. destruct (r_dynamic r).
    - destruct (dtable_get _ _); [apply dec_add_bad|discriminate].
    - destruct (stable_get _) as [[[? ?] ?]|]; [apply dec_add_bad|discriminate]. }
  assert (DD : forall r c', dec_duplicate_add (d_ctx d) r = Ok c' -> bad c' = bad (d_ctx d)).
  { intros r c'. unfold dec_duplicate_add.
    destruct (dtable_get _ _); [apply dec_add_bad|discriminate]. }
  assert (DL : forall r c', dec_literal_add (d_ctx d) r = Ok c' -> bad c' = bad (d_ctx d)) by (intros r c'; apply dec_add_bad).
  assert (DC : forall r c', dec_set_cap (d_ctx d) r = Ok c' -> bad c' = bad (d_ctx d)) by (intros r c'; apply dec_set_cap_bad).
  unfold es_step, es_read_index, es_read_namelen, es_read_valuelen, es_read_name, es_read_value, es_done, es_fail.
  destruct (d_state d).
  - destruct p; [auto|]. cbv zeta. repeat (match goal with |- context [if ?X then _ else _] => destruct X end); auto.
  - destruct (q_read_varint _ _ _ _) as [[[[l sh] r] [|]]|e|]; auto. cbv zeta.
    destruct (d_op d); repeat (match goal with |- context [match ?X with Ok _ => _ | Err _ => _ | Abort => _ end] => destruct X eqn:?; auto end); cbn; eauto.
  - destruct p; [auto|]. destruct (q_read_varint _ _ _ _) as [[[[l sh] r] [|]]|e|]; auto. destruct (_ >? _); auto.
  - destruct (q_read_varint _ _ _ _) as [[[[l sh] r] [|]]|e|]; auto. destruct (_ >? _); auto.
  - destruct (read_str _ _ _ _ _ _) as [[[[l f] nm] r]|e|]; auto. cbv zeta. destruct (negb _); auto.
  - destruct (read_str _ _ _ _ _ _) as [[[[l f] nm] r]|e|]; auto. cbv zeta. destruct (negb _); auto.
  - destruct p; [auto|]. destruct (q_read_varint _ _ _ _) as [[[[l sh] r] [|]]|e|]; auto. destruct (_ >? _); auto.
  - destruct (q_read_varint _ _ _ _) as [[[[l sh] r] [|]]|e|]; auto. destruct (_ >? _); auto.
  - destruct (read_str _ _ _ _ _ _) as [[[[l f] nm] r]|e|]; auto. cbv zeta. destruct (negb _); auto.
    destruct (d_op d); repeat (match goal with |- context [match ?X with Ok _ => _ | Err _ => _ | Abort => _ end] => destruct X eqn:?; auto end); cbn; eauto.
  - destruct (read_str _ _ _ _ _ _) as [[[[l f] nm] r]|e|]; auto. cbv zeta. destruct (negb _); auto.
    destruct (d_op d); repeat (match goal with |- context [match ?X with Ok _ => _ | Err _ => _ | Abort => _ end] => destruct X eqn:?; auto end); cbn; eauto.
Qed.
Lemma es_run_bad d p :
  match es_run d p with
  | ROk d' _ | RStop d' _ _ => bad (d_ctx d') = bad (d_ctx d)
  | RErr _ d' _ => bad (d_ctx d') = true
  | RAbort => True
  end.
Proof.
  unfold es_run, run. generalize (S (measure 8 es_rank d p)). intros f. generalize false as busy.
  revert d p. induction f as [|f IH]; intros d p busy.
  - destruct p, busy; cbn; auto.
  - assert (T : match turn es_step d p (run_fuel es_step f) with
              | ROk d' _ | RStop d' _ _ => bad (d_ctx d') = bad (d_ctx d)
              | RErr _ d' _ => bad (d_ctx d') = true | RAbort => True end).
    { unfold turn. pose proof (es_step_bad d p) as E. destruct (es_step d p) as [d1 r b ev| | | |]; auto.
      specialize (IH d1 r b). destruct (run_fuel es_step f d1 r b); cbn; auto; congruence. }
    destruct p, busy; cbn [run_fuel]; auto.
Qed.

Lemma read_encoder_run d src : es_inv d -> bytes src -> bad (d_ctx d) = false -> d_unint d + zlen src <= MAX_ENCODERLEN ->
  read_encoder d src =
  match es_run d src with
  | ROk d' _ => (d_count d' (d_unint d + zlen src) (d_seen d ++ src), Ok (zlen src))
  | RErr e d' _ => (d_count d' (d_unint d + zlen src) (d_seen d ++ src), Err e)
  | _ => (d, Abort)
  end.
Proof.
  intros Hi Hb B L. unfold read_encoder. rewrite B. destruct src as [|x src].
  - change (es_run d []) with (@ROk dec unit d []). rewrite zlen_nil, Z.add_0_r, app_nil_r. destruct d; reflexivity.
  - cbv zeta. cbn [d_unint d_got]. destruct (Z.gtb_spec (d_unint d + zlen (x :: src)) MAX_ENCODERLEN); [lia|].
    change (d_got d (x :: src)) with (d_count d (d_unint d + zlen (x :: src)) (d_seen d ++ x :: src)). rewrite es_run_unint. pose proof (es_run_good d (x :: src) Hi Hb) as G. pose proof (es_run_no_stop d (x :: src)) as N.
    destruct (es_run d (x :: src)); auto; contradiction.
Qed.

Lemma es_run_app d a b : es_inv d -> bytes a -> bytes b ->
  es_run d (a ++ b) =
  match es_run d a with
  | ROk s' ev => rev_ ev (es_run s' b)
  | RStop s' rest ev => RStop s' (rest ++ b) ev
  | RErr e s' ev => RErr e s' ev
  | RAbort => RAbort
  end.
Proof. intros Hi Ha Hb. apply (run_app es_step 8 es_rank es_inv es_ce es_step_ok); auto; discriminate. Qed.

Lemma feed_encoder_concat ps : forall d, es_inv d -> bytes (concat ps) -> bad (d_ctx d) = false ->
  d_unint d + zlen (concat ps) <= MAX_ENCODERLEN ->
  match feed_encoder d ps, read_encoder d (concat ps) with
  | (d1, Ok n1), (d2, Ok n2) => d1 = d2 /\ n1 = n2
  | (d1, Err e1), (d2, Err e2) => e1 = e2 /\ same_dec d1 d2
  | _, _ => False
  end.
Proof.
  induction ps as [|p ps IH]; intros d Hi Hb B L; cbn [feed_encoder concat].
  - unfold read_encoder. rewrite B. auto.
  - cbn [concat] in *. apply bytes_app in Hb as Hb'. destruct Hb' as [Hp Hc]. rewrite zlen_app in L.
    pose proof (zlen_nonneg _ (concat ps)).
    rewrite (read_encoder_run d (p ++ concat ps)) by (auto; rewrite zlen_app; lia).
    rewrite (read_encoder_run d p) by (auto; lia). rewrite es_run_app by auto.
    pose proof (es_run_good d p Hi Hp) as G. pose proof (es_run_no_stop d p) as N. pose proof (es_run_bad d p) as Bd.
    pose proof (es_run_meta d p) as M.
    destruct (es_run d p) as [d1 ev|d1 r ev|e d1 ev|]; try contradiction; cbn [good] in G.
    + assert (G1 : es_inv (d_count d1 (d_unint d + zlen p) (d_seen d ++ p))) by exact G.
      specialize (IH (d_count d1 (d_unint d + zlen p) (d_seen d ++ p)) G1 Hc).
      cbn [d_ctx d_unint d_seen d_count] in IH. specialize (IH ltac:(congruence) ltac:(lia)).
      rewrite (read_encoder_run _ (concat ps)) in IH; [|exact G1|auto|cbn [d_ctx d_count]; congruence|cbn [d_unint d_seen d_count]; lia].
      rewrite es_run_unint in IH. cbn [d_unint d_seen d_count] in IH.
      destruct (es_run d1 (concat ps)) as [d2 ev2|d2 r2 ev2|e2 d2 ev2|]; cbn [rev_];
        destruct (feed_encoder _ ps) as [d3 [m|e3|]]; auto; try contradiction.
      * destruct IH as [-> ->]. cbn. rewrite zlen_app. split; [|auto]. unfold d_count; cbn. f_equal; [lia|rewrite app_assoc; reflexivity].
    + split; [auto|]. unfold same_dec. reflexivity.
Qed.

