(* What reading a request stream does to the QPACK decoder of the connection, and what a blocked stream waits for *)
From Verif Require Import Base BaseLemmas ConvModel RdVarint QpackIntModel QpackTabModel QpackTabProofs QpackDecModel QpackDecProofs
  QpackHistModel QpackHistProofs QpackCutProofs HttpModel Chunk Chunk2 BidiModel BidiHist BidiProofs BidiRun SecSuffix BidiSpec BidiCut SecGood.
Open Scope Z_scope.

Lemma evolves_trans a b c : dec_evolves a b -> dec_evolves b c -> dec_evolves a c.
Proof. induction 1; eauto using dec_evolves. Qed.
Lemma fin_ctx d s d' : read_request_fin d s = Ok d' -> d_ctx d' = d_ctx d.
Proof.
  unfold read_request_fin. destruct (s_state s); try discriminate. destruct (s_ricnt s =? 0); [intros [= <-]; reflexivity|].
  unfold write_section_ack. destruct (dbuf_overflow d); [discriminate|]. intros [= <-]. reflexivity.
Qed.
Lemma stop_waits c s p : match rs_step c s p with SStop s' _ _ => next_absidx c < s_ricnt s' | _ => True end.
Proof.
  unfold rs_step. destruct (s_state s);
  unfold rs_read_ricnt, rs_read_dbase, rs_read_index, rs_read_namelen, rs_read_name, rs_read_valuelen, rs_read_value, rs_opcode_step, rs_emit, rs_fail; cbv zeta;
  repeat match goal with
  | |- context [?x >? ?y] => destruct (x >? y) eqn:?; cbn; auto; try lia
  | |- match (match ?x with _ => _ end) with _ => _ end => destruct x
  end; auto.
  all: try (match goal with H : _ = true |- _ => apply Z.gtb_lt in H; cbn in H |- *; exact H end).
Qed.
Definition waits (d : dec) (s : sctx) : Prop := next_absidx (d_ctx d) < s_ricnt s.
Lemma loop_blocked f : forall d s p busy fin s' rest, rq_loop f d s p busy fin = RqBlocked s' rest -> waits d s'.
Proof.
  assert (RE : forall d s fin s' rest, rq_end d s fin = RqBlocked s' rest -> waits d s').
  { intros d s fin s' rest. unfold rq_end. destruct fin; [|discriminate]. destruct (read_request_fin d s); discriminate. }
  induction f as [|f IH]; intros d s p busy fin s' rest; cbn [rq_loop].
  - destruct p, busy; try discriminate. apply RE.
  - assert (match rs_step (d_ctx d) s p with
      | SGo s' rest b [] => rq_loop f d s' rest b fin
      | SGo s' rest b (v :: _) => RqEmit s' v rest
      | SMore s' _ => rq_end d s' fin
      | SStop s' rest _ => RqBlocked s' rest
      | SErr e s' _ => RqErr e (d_fail d) s'
      | SAbort => RqAbort
      end = RqBlocked s' rest -> waits d s') as T.
    { pose proof (stop_waits (d_ctx d) s p) as W. destruct (rs_step (d_ctx d) s p) as [s1 r1 b [|v l]|s1 ev|s1 r1 ev| |]; try discriminate; eauto.
      intros [= <- <-]. exact W. }
    destruct p; [destruct busy; [exact T|apply RE]|exact T].
Qed.
Lemma section_blocked d s p fin vs s' rest : decode_section d s p fin = (vs, RqBlocked s' rest) -> waits d s'.
Proof.
  unfold decode_section. generalize (S (S (length p))). intros f. revert s p vs. induction f as [|f IH]; intros s p vs; cbn [decode_all]; [discriminate|].
  destruct (read_request d s p fin) as [s1 v r1|s1 r1|s1|d1 s1|e d1 s1|] eqn:RR; try discriminate.
  - destruct (decode_all f d s1 r1 fin) as [vs1 q] eqn:DA. intros [= <- ->]. eapply IH; eauto.
  - intros [= <- <- <-]. unfold read_request in RR. destruct (bad (d_ctx d)); [discriminate|]. eapply loop_blocked; eauto.
Qed.
(* a turn of the loop *)
Definition dchg (s : bst) (p : list Z) (ev : list bev) (s' : bst) (rest : list Z) : Prop :=
  dec_evolves (b_dec s) (b_dec s') /\ d_ctx (b_dec s') = d_ctx (b_dec s).
Lemma dchg_same s p ev s' rest : b_dec s' = b_dec s -> dchg s p ev s' rest.
Proof. intros E. unfold dchg. rewrite E. split; [constructor|reflexivity]. Qed.
Lemma bstep_dchg E s a : b_inv s -> bytes a -> runnable b_ce s a ->
  match bstep true false E s a with
  | SGo s' rest _ ev | SStop s' rest ev => dchg s a ev s' rest
  | SMore s' ev => dchg s a ev s' []
  | _ => True
  end.
Proof.
  intros Hi B Rn. unfold bstep. destruct (b_rd s) eqn:Rd.
  - destruct (rd_varint (b_rv s) a false); cbn; auto; apply dchg_same; reflexivity.
  - destruct (rd_varint (b_rv s) a false); [apply dchg_same; reflexivity| |exact Logic.I|exact Logic.I]. unfold frame_start, b_fail.
    repeat (match goal with |- context [if ?c then _ else _] => destruct c | |- context [transit ?a ?b ?c ?d] => destruct (transit a b c d) | |- context [match ?c with HpInitial => _ | _ => _ end] => destruct c end; cbv beta iota; auto; try (apply dchg_same; reflexivity)).
  - unfold data_step, b_fail. destruct (on_data_chunk _ _) as [h ok]. destruct ok; auto. cbv zeta.
    destruct (_ =? 0); [destruct (transit _ _ _ _); auto|]; apply dchg_same; reflexivity.
  - unfold headers_step. cbv zeta. set (n := Z.min (b_left s) (zlen a)). pose proof (bi_left _ Hi) as L0.
    destruct (headers_split s a L0 B) as (B1 & B2 & _). fold n in B1, B2.
    destruct (dsec_good (b_dec s) (b_sctx s) (firstn (Z.to_nat n) a) (n =? b_left s) (bi_dec _ Hi) (bi_bad _ Hi) (bi_sec _ Hi) B1) as [_ DG].
    destruct (decode_section _ _ _ _) as [vs r]. cbn [snd] in DG. destruct (on_headers _ _ _ _ _ _) as [[h out] ok].
    destruct ok; cbn [negb]; [|unfold malformed; apply dchg_same; reflexivity].
    assert (HE : forall sc d p rest c evs, dec_evolves (b_dec s) d /\ d_ctx d = d_ctx (b_dec s) ->
      match headers_end E s h sc d p rest c evs with SGo s' rest _ ev | SStop s' rest ev => dchg s a ev s' rest | SMore s' ev => dchg s a ev s' [] | _ => True end).
    { intros sc d p rest c evs D. unfold headers_end. destruct (match b_ph s with HpHeadersBegin => _ | _ => _ end) as [[h' ok]| |]; auto. destruct ok.
      - destruct (transit _ _ _ _); auto.
      - unfold malformed. exact D. }
    destruct r as [sc v rest0|sc rest0|sc|d' sc|e d' sc|]; try contradiction; auto.
    + destruct (e_full E); [exact Logic.I|]. apply dchg_same; reflexivity.
    + destruct (_ =? 0); [|apply dchg_same; reflexivity]. apply HE. split; [constructor|reflexivity].
    + destruct DG as (_ & _ & G1 & G2). apply HE. split; [|eapply fin_ctx; eauto].
      apply de_other_section with (d1 := d') (s := sc); [rewrite G1; apply (bi_id _ Hi)|exact G2|constructor].
  - cbv zeta. destruct (_ =? 0); apply dchg_same; reflexivity.
  - apply dchg_same; reflexivity.
Qed.
Lemma b_read_dchg pre E s p fin : b_inv s -> bytes p ->
  match b_read pre E s p fin with ROk s' _ | RStop s' _ _ => dec_evolves (b_dec s) (b_dec s') /\ d_ctx (b_dec s') = d_ctx (b_dec s) | _ => True end.
Proof.
  intros Hi B.
  assert (F : match b_read true E s p false with ROk s' _ | RStop s' _ _ => dec_evolves (b_dec s) (b_dec s') /\ d_ctx (b_dec s') = d_ctx (b_dec s) | _ => True end).
  { unfold b_read, b_run.
    assert (R1 : forall s, b_inv s -> dchg s [] [] s []) by (intros; apply dchg_same; reflexivity).
    assert (R2 : forall s1 p1 e1 s2 p2 e2 s3 p3, dchg s1 p1 e1 s2 p2 -> dchg s2 p2 e2 s3 p3 -> dchg s1 p1 (e1 ++ e2) s3 p3).
    { unfold dchg. intros ? ? ? ? ? ? ? ? [A1 A2] [A3 A4]. split; [eapply evolves_trans; eauto|congruence]. }
    pose proof (run_rel (bstep true false E) 2 b_rank b_inv b_ce (bstep_sok E) dchg R1 R2 (bstep_dchg E) s p false Hi B ltac:(discriminate)) as R.
    destruct (run _ _ _ _ _ _); auto. }
  assert (G : match b_read true E s p fin with ROk s' _ | RStop s' _ _ => dec_evolves (b_dec s) (b_dec s') /\ d_ctx (b_dec s') = d_ctx (b_dec s) | _ => True end).
  { destruct fin; [|exact F]. rewrite b_read_fin by auto. destruct (b_read true E s p false) as [s' ev| | |]; auto.
    unfold b_finish. destruct (b_rd s'); auto. destruct (negb _); auto. destruct (transit _ _ _ _); auto. }
  destruct pre; [exact G|]. destruct (b_read_pre E s p fin) as [-> |(e & e1 & e2 & -> & _ & _)]; auto.
Qed.
(* what the loop stops at *)
Lemma run_stop_waits pre fin E f : forall s p busy s' rest ev, run_fuel (bstep pre fin E) f s p busy = RStop s' rest ev -> waits (b_dec s') (b_sctx s').
Proof.
  induction f as [|f IH]; intros s p busy s' rest ev; [destruct p, busy; discriminate|].
  assert (D : (p = [] /\ busy = false) \/ forall g : bst -> list Z -> sres bst bev, run_fuel g (S f) s p busy = turn g s p (run_fuel g f)).
  { destruct p; [destruct busy|]; auto. }
  destruct D as [[-> ->]|D]; [discriminate|]. rewrite D. unfold turn.
  assert (K : forall s1 r1 e1, bstep pre fin E s p = SStop s1 r1 e1 -> waits (b_dec s1) (b_sctx s1)).
  { intros s1 r1 e1. unfold bstep. destruct (b_rd s).
    - destruct (rd_varint _ _ _); discriminate.
    - destruct (rd_varint _ _ _); try discriminate. unfold frame_start, b_fail.
      repeat match goal with |- context [match ?c with _ => _ end] => destruct c end; discriminate.
    - unfold data_step, b_fail. destruct (on_data_chunk _ _) as [h [|]]; [|discriminate]. cbv zeta.
      destruct (_ =? 0); [destruct (transit _ _ _ _)|]; discriminate.
    - unfold headers_step. cbv zeta. destruct (decode_section _ _ _ _) as [vs q] eqn:DS. destruct (on_headers _ _ _ _ _ _) as [[h out] ok].
      destruct ok; cbn [negb]; [|unfold malformed; discriminate].
      assert (HE : forall sc d p rest c evs s1 r1 e1, headers_end E s h sc d p rest c evs = SStop s1 r1 e1 -> False).
      { intros sc d p0 rest0 c evs s2 r2 e2. unfold headers_end, malformed. destruct (match b_ph s with HpHeadersBegin => _ | _ => _ end) as [[h' [|]]| |]; try discriminate. destruct (transit _ _ _ _); discriminate. }
      destruct q; try discriminate; unfold b_fail.
      + destruct (e_full E); [discriminate|]. intros [= <- <- <-]. cbn [b_dec b_sctx]. eapply section_blocked; eauto.
      + destruct (_ =? 0); [|discriminate]. intros H. elim (HE _ _ _ _ _ _ _ _ _ H).
      + intros H. elim (HE _ _ _ _ _ _ _ _ _ H).
    - cbv zeta. destruct (_ =? 0); discriminate.
    - discriminate. }
  destruct (bstep pre fin E s p) as [s1 r1 b1 e1|s1 e1|s1 r1 e1|e s1 e1|]; try discriminate.
  - destruct (run_fuel (bstep pre fin E) f s1 r1 b1) as [s2 e2|s2 r2 e2|e s2 e2|] eqn:RF; cbn [rev_]; try discriminate. intros [= <- _ _]. eapply IH; eauto.
  - intros [= <- _ _]. eapply K; reflexivity.
Qed.
Lemma b_read_waits pre E s p fin s' rest ev : b_read pre E s p fin = RStop s' rest ev -> waits (b_dec s') (b_sctx s').
Proof.
  unfold b_read, b_run, run. destruct (run_fuel _ _ _ _ _) as [s1 e1|s1 r1 e1|e s1 e1|] eqn:R; try discriminate.
  - destruct fin; [|discriminate]. unfold b_finish. destruct (b_rd s1); try discriminate. destruct (negb _); [discriminate|]. destruct (transit _ _ _ _); discriminate.
  - intros [= <- _ _]. eapply run_stop_waits; eauto.
Qed.
(* a piece received *)
Lemma recv_dchg E x src fin x' ev : x_inv x -> bytes src -> recv false E x src fin = XOk x' ev ->
  dec_evolves (b_dec (x_st x)) (b_dec (x_st x')) /\ d_ctx (b_dec (x_st x')) = d_ctx (b_dec (x_st x)) /\
  (b_blk (x_st x') = true -> x_st x' = x_st x \/ waits (b_dec (x_st x')) (b_sctx (x_st x'))).
Proof.
  intros [X1 X2 X3 X4] B. unfold recv. destruct (_ && _); [intros [= <- _]; split; [constructor|auto]|]. cbv zeta. unfold read_bidi. cbn [x_st x_shut x_inq x_id x_eof x_closed x_ret x_def].
  destruct (x_shut x); [intros [= <- _]; cbn; split; [constructor|auto]|]. destruct (b_blk (x_st x)) eqn:BK; [intros [= <- _]; cbn; split; [constructor|auto]|].
  pose proof (b_read_dchg false E (x_st x) src fin X1 B) as D. pose proof (b_read_blk false E (x_st x) src fin) as BB.
  destruct (b_read false E (x_st x) src fin) as [s' e'|s' rest e'|e s' e'|] eqn:R; try discriminate; intros [= <- _]; cbn [x_add x_st].
  - destruct D. split; [auto|]. split; [auto|]. intros Q. rewrite BB in Q by auto. discriminate.
  - destruct D. split; [auto|]. split; [auto|]. intros _. right. eapply b_read_waits; eauto.
Qed.
Lemma proc_dchg E f : forall x, b_inv (x_st x) -> bufs_ok (x_inq x) -> b_blk (x_st x) = false ->
  match process_blocked false f E x with
  | XOk x' _ => dec_evolves (b_dec (x_st x)) (b_dec (x_st x')) /\ d_ctx (b_dec (x_st x')) = d_ctx (b_dec (x_st x)) /\ (b_blk (x_st x') = true -> waits (b_dec (x_st x')) (b_sctx (x_st x')))
  | XGone _ _ => False
  | _ => True
  end.
Proof.
  induction f as [|f IH]; intros x X1 X2 BK; cbn [process_blocked]; [exact Logic.I|].
  destruct (x_inq x) as [|[buf room] q] eqn:Q; [split; [constructor|]; split; [auto|congruence]|].
  inversion X2 as [|? ? [N B] X2']; subst. cbn [fst] in N, B.
  assert (REC : forall y n nc ev, b_inv (x_st y) -> b_blk (x_st y) = false -> x_inq y = (buf, room) :: q ->
    dec_evolves (b_dec (x_st x)) (b_dec (x_st y)) -> d_ctx (b_dec (x_st y)) = d_ctx (b_dec (x_st x)) ->
    match x_evs ev (process_blocked false f E (x_add y (if zlen (skipn n buf) =? 0 then q else (skipn n buf, room) :: q) 0 nc)) with
    | XOk x' _ => dec_evolves (b_dec (x_st x)) (b_dec (x_st x')) /\ d_ctx (b_dec (x_st x')) = d_ctx (b_dec (x_st x)) /\ (b_blk (x_st x') = true -> waits (b_dec (x_st x')) (b_sctx (x_st x')))
    | XGone _ _ => False | _ => True end).
  { intros y n nc ev Y1 Y2 Y3 Y4 Y5. specialize (IH (x_add y (if zlen (skipn n buf) =? 0 then q else (skipn n buf, room) :: q) 0 nc)).
    cbn [x_add x_st x_inq] in IH. assert (BO : bufs_ok (if zlen (skipn n buf) =? 0 then q else (skipn n buf, room) :: q)).
    { destruct (zlen (skipn n buf) =? 0) eqn:Z0; [auto|]. constructor; [|auto]. cbn [fst]. split; [intros EQ; rewrite EQ in Z0; discriminate|]. apply bytes_skipn; auto. }
    specialize (IH Y1 BO Y2). unfold x_add in *. destruct (process_blocked false f E _) as [x'|x'| |]; cbn [x_evs]; auto.
    destruct IH as (I1 & I2 & I3). split; [eapply evolves_trans; eauto|]. split; [congruence|auto]. }
  unfold read_bidi. destruct (x_shut x) eqn:SH.
  - rewrite Q. cbn [x_add x_st]. rewrite BK. apply REC; auto. constructor.
  - rewrite BK. set (fn := _ && x_eof x). pose proof (b_read_dchg false E (x_st x) buf fn X1 B) as D. pose proof (b_read_blk false E (x_st x) buf fn) as BB.
    pose proof (b_read_good_pre false E (x_st x) buf fn X1 B) as GD.
    destruct (b_read false E (x_st x) buf fn) as [s' e'|s' rest e'|e s' e'|] eqn:R; try exact Logic.I; cbn [x_inq x_add x_st].
    + rewrite Q. cbn [x_add x_st]. rewrite BB by auto. destruct D as [D1 D2].
      apply (REC (mk_rx (x_id x) s' ((buf, room) :: q) false (x_eof x) (x_closed x) (x_ret x) (x_def x))); cbn [x_st x_inq]; auto.
    + assert (QQ : (if negb (zlen rest =? 0) && (buffered_len (x_inq x) =? 0) then buffer_data (x_inq x) rest else x_inq x) = (buf, room) :: q).
      { assert (BL : (buffered_len (x_inq x) =? 0) = false).
        { rewrite Q. unfold buffered_len, inbytes. cbn [map concat fst]. rewrite zlen_app. destruct buf as [|b0 buf]; [congruence|]. apply Z.eqb_neq. unfold zlen. cbn [length]. lia. }
        rewrite BL, andb_false_r. exact Q. }
      cbn [x_inq x_st] in *. rewrite QQ. cbn [x_add x_st]. rewrite BB. cbn [x_st]. destruct D as [D1 D2]. split; [auto|]. split; [auto|]. intros _. eapply b_read_waits; eauto.
Qed.
Lemma resume_dchg E x : b_inv (x_st x) -> bufs_ok (x_inq x) -> b_blk (x_st x) = false ->
  match resume false E x with
  | XOk x' _ | XGone x' _ => dec_evolves (b_dec (x_st x)) (b_dec (x_st x')) /\ d_ctx (b_dec (x_st x')) = d_ctx (b_dec (x_st x)) /\ (b_blk (x_st x') = true -> waits (b_dec (x_st x')) (b_sctx (x_st x')))
  | _ => True
  end.
Proof.
  intros X1 X2 X3. unfold resume. pose proof (proc_dchg E (S (length (x_inq x))) x X1 X2 X3) as P.
  destruct (process_blocked _ _ _ _) as [x' ev|x' ev| |]; auto; [|contradiction]. destruct (_ && _); unfold x_delete; cbn [x_add x_st]; auto.
Qed.
