(* The input a reader leaves unread is a suffix of what it was given. *)
From Verif Require Import Base BaseLemmas ConvModel RdVarint QpackIntModel QpackTabModel QpackDecModel QpackHistModel HttpModel Chunk Chunk2 BidiModel BidiProofs.
Open Scope Z_scope.
Definition suf (r p : list Z) : Prop := exists c, p = c ++ r.
Lemma suf_refl p : suf p p. Proof. exists []; auto. Qed.
Lemma suf_nil p : suf [] p. Proof. exists p. rewrite app_nil_r; auto. Qed.
Lemma suf_cons x r p : suf r p -> suf r (x :: p). Proof. intros [c ->]. exists (x :: c); auto. Qed.
Lemma suf_skipn n p : suf (skipn n p) p. Proof. exists (firstn n p). rewrite firstn_skipn; auto. Qed.
Lemma suf_trans a b c : suf a b -> suf b c -> suf a c.
Proof. intros [x ->] [y ->]. exists (y ++ x). rewrite app_assoc; auto. Qed.
Lemma suf_app a b c : suf a b -> suf (a ++ c) (b ++ c). Proof. intros [x ->]. exists x. rewrite app_assoc; auto. Qed.
Lemma suf_skip r p : suf r p -> r = skipn (length p - length r) p.
Proof.
  intros [c ->]. rewrite app_length. replace (length c + length r - length r)%nat with (length c) by lia.
  rewrite skipn_app, skipn_all, Nat.sub_diag. reflexivity.
Qed.
Lemma q_loop_suf p : forall n sh l s r f, q_loop n sh p = Ok (l, s, r, f) -> suf r p.
Proof.
  induction p as [|b p IH]; intros n sh l s r f H; cbn [q_loop] in H.
  - injection H as _ _ <- _. apply suf_refl.
  - cbv zeta in H. destruct (sh >? 62); [discriminate|]. destruct (_ <? _); [discriminate|].
    destruct (_ <? _); [discriminate|]. destruct (_ =? 0).
    + injection H as _ _ <- _. apply suf_cons, suf_refl.
    + apply suf_cons. eapply IH; eauto.
Qed.
Lemma q_read_suf pf n sh p l s r f : q_read_varint pf n sh p = Ok (l, s, r, f) -> suf r p.
Proof.
  unfold q_read_varint. cbv zeta. destruct (n =? 0); [|apply q_loop_suf]. destruct p as [|b p]; [discriminate|].
  destruct (negb _).
  - intros [= _ _ <- _]. apply suf_cons, suf_refl.
  - destruct p; intros H; [injection H as _ _ <- _; apply suf_nil|apply suf_cons; eapply q_loop_suf; exact H].
Qed.
Lemma read_str_suf huf l fs buf cap p l' fs' b' r : read_str huf l fs buf cap p = Ok (l', fs', b', r) -> suf r p.
Proof.
  unfold read_str. destruct huf.
  - unfold HuffModel.read_huffman_string. cbv zeta. destruct (HuffModel.huff_decode _ _ _) as [[fs1 out]|e|]; try discriminate.
    destruct (HuffModel.huff_failure fs1); [discriminate|]. destruct (_ >? _); [discriminate|].
    intros [= _ _ _ <-]. apply suf_skipn.
  - cbv zeta. destruct (_ >? _); [discriminate|]. intros [= _ _ _ <-]. apply suf_skipn.
Qed.
Definition s_suf {St Ev} (p : list Z) (r : sres St Ev) : Prop :=
  match r with SGo _ rest _ _ | SStop _ rest _ => suf rest p | _ => True end.
Lemma rs_step_suf c s p : s_suf p (rs_step c s p).
Proof.
  assert (D : forall s r, s_suf p (rs_read_dbase c s r p)).
  { intros s0 r. unfold rs_read_dbase. destruct (q_read_varint _ _ _ _) as [[[[l sh] rs] [|]]|e|] eqn:Q; cbn; auto.
    apply q_read_suf in Q. destruct (_ && _); cbn; auto. destruct (_ >? _); cbn; auto. }
  assert (N : forall s r, s_suf p (rs_read_namelen s r p)).
  { intros s0 r. unfold rs_read_namelen. destruct (q_read_varint _ _ _ _) as [[[[l sh] rs] [|]]|e|] eqn:Q; cbn; auto.
    apply q_read_suf in Q. destruct (_ >? _); cbn; auto. }
  assert (V : forall s r, s_suf p (rs_read_valuelen s r p)).
  { intros s0 r. unfold rs_read_valuelen. destruct (q_read_varint _ _ _ _) as [[[[l sh] rs] [|]]|e|] eqn:Q; cbn; auto.
    apply q_read_suf in Q. destruct (_ >? _); cbn; auto. }
  assert (NM : forall huf s, s_suf p (rs_read_name huf s p)).
  { intros huf s0. unfold rs_read_name. cbv zeta. destruct (read_str _ _ _ _ _ _) as [[[[l fs] b] r]|e|] eqn:Q; cbn; auto.
    apply read_str_suf in Q. destruct (negb _); cbn; auto. }
  assert (VL : forall huf s, s_suf p (rs_read_value c huf s p)).
  { intros huf s0. unfold rs_read_value. cbv zeta. destruct (read_str _ _ _ _ _ _) as [[[[l fs] b] r]|e|] eqn:Q; cbn; auto.
    apply read_str_suf in Q. destruct (negb _); cbn; auto.
    destruct (match s_op s0 with RoIndexedName => _ | RoLiteral => _ | _ => _ end); cbn; auto. }
  unfold rs_step. destruct (s_state s); auto.
  - unfold rs_read_ricnt. cbv zeta. destruct (q_read_varint _ _ _ _) as [[[[l sh] rs] [|]]|e|] eqn:Q; cbn; auto.
    apply q_read_suf in Q. destruct (reconstruct_ricnt _ _); cbn; auto.
  - destruct p; cbn [s_suf]; auto.
  - destruct p; cbn [s_suf]; auto. unfold rs_opcode_step. cbv zeta.
    repeat match goal with |- context [if ?X then _ else _] => destruct X end; cbn; auto; apply suf_refl.
  - unfold rs_read_index. cbv zeta. destruct (q_read_varint _ _ _ _) as [[[[l sh] rs] [|]]|e|] eqn:Q; cbn; auto.
    apply q_read_suf in Q. destruct (match s_op s with RoIndexed => _ | _ => _ end); cbn; auto.
    destruct (s_op s); cbn; auto; destruct (emit_indexed _ _); cbn; auto.
  - destruct p; cbn [s_suf]; auto.
  - destruct p; cbn [s_suf]; auto.
  - destruct (_ >? _); cbn; apply suf_refl.
Qed.
Lemma rq_loop_suf f : forall d s p busy fin,
  match rq_loop f d s p busy fin with RqEmit _ _ rest | RqBlocked _ rest => suf rest p | _ => True end.
Proof.
  assert (RE : forall d s p fin, match rq_end d s fin with RqEmit _ _ rest | RqBlocked _ rest => suf rest p | _ => True end).
  { intros d s p [|]; cbn; auto. destruct (read_request_fin d s); auto. }
  induction f as [|f IH]; intros d s p busy fin.
  - destruct p; cbn; auto. destruct busy; auto. apply RE.
  - assert (X : rq_loop (S f) d s p busy fin = rq_end d s fin \/ rq_loop (S f) d s p busy fin =
      match rs_step (d_ctx d) s p with
      | SGo s' rest b [] => rq_loop f d s' rest b fin
      | SGo s' rest b (v :: _) => RqEmit s' v rest
      | SMore s' _ => rq_end d s' fin
      | SStop s' rest _ => RqBlocked s' rest
      | SErr e s' _ => RqErr e (d_fail d) s'
      | SAbort => RqAbort
      end) by (destruct p; [destruct busy|]; auto).
    destruct X as [-> | ->]; [apply RE|]. pose proof (rs_step_suf (d_ctx d) s p) as S1.
    destruct (rs_step (d_ctx d) s p) as [s' rest b ev|s' ev|s' rest ev|e s' ev|]; auto; cbn in S1.
    + destruct ev; auto. specialize (IH d s' rest b fin).
      destruct (rq_loop f d s' rest b fin); auto; eapply suf_trans; eauto.
    + apply RE.
Qed.
Lemma decode_all_suf f : forall d s p fin,
  match snd (decode_all f d s p fin) with RqBlocked _ rest => suf rest p | _ => True end.
Proof.
  induction f as [|f IH]; intros d s p fin; cbn [decode_all snd]; auto.
  assert (L : match read_request d s p fin with RqEmit _ _ rest | RqBlocked _ rest => suf rest p | _ => True end).
  { unfold read_request. destruct (bad (d_ctx d)); auto. apply rq_loop_suf. }
  destruct (read_request d s p fin) as [s' v rest|s' rest|s'|d' s'|e d' s'|]; auto.
  specialize (IH d s' rest fin). destruct (decode_all f d s' rest fin) as [vs r]. cbn [snd] in *.
  destruct r; auto. eapply suf_trans; eauto.
Qed.

Lemma rd_varint_suf rv p fin v rest : rd_varint rv p fin = VDone v rest -> suf rest p.
Proof.
  unfold rd_varint. destruct (read_varint rv p fin) as [[rv' n]|e|]; try discriminate.
  destruct (_ =? 0); [|discriminate]. intros [= _ <-]. apply suf_skipn.
Qed.
Lemma bstep_suf pre fin E s p : s_suf p (bstep pre fin E s p).
Proof.
  unfold bstep. destruct (b_rd s).
  - destruct (rd_varint _ _ _) as [rv|v rest| |] eqn:V; cbn; auto. eapply rd_varint_suf; eauto.
  - destruct (rd_varint _ _ _) as [rv|v rest| |] eqn:V; try exact Logic.I. apply rd_varint_suf in V. unfold frame_start, b_fail.
    destruct (b_ty s =? FRAME_DATA).
    { destruct (transit _ _ _ _) as [ph|e|]; cbn; auto. destruct (v =? 0); cbn; auto. destruct (transit _ _ _ _); cbn; auto. }
    destruct (b_ty s =? FRAME_HEADERS).
    { destruct (transit _ _ _ _) as [ph|e|]; cbn; auto. destruct (v =? 0).
      - destruct (empty_headers_allowed _); cbn; auto. destruct (transit _ _ _ _); cbn; auto.
      - destruct ph; cbn; auto. }
    destruct (refused _); cbn; auto.
  - unfold data_step, b_fail. destruct (on_data_chunk _ _) as [h ok]. destruct ok; cbn; auto.
    destruct (_ =? 0); cbn; auto. destruct (transit _ _ _ _); cbn; auto. apply suf_skipn.
  - unfold headers_step. cbv zeta.
    pose proof (decode_all_suf (S (S (length (firstn (Z.to_nat (Z.min (b_left s) (zlen p))) p)))) (b_dec s) (b_sctx s)
      (firstn (Z.to_nat (Z.min (b_left s) (zlen p))) p) (Z.min (b_left s) (zlen p) =? b_left s)) as DS.
    fold (decode_section (b_dec s) (b_sctx s) (firstn (Z.to_nat (Z.min (b_left s) (zlen p))) p) (Z.min (b_left s) (zlen p) =? b_left s)) in DS.
    destruct (decode_section _ _ _ _) as [vs r]. cbn [snd] in DS.
    destruct (on_headers _ _ _ _ _ _) as [[h out] ok]. destruct ok; cbn [negb]; [|cbn; auto].
    assert (HE : forall sc d p0 c evs, s_suf p (headers_end E s h sc d p0 (skipn (Z.to_nat (Z.min (b_left s) (zlen p))) p) c evs)).
    { intros. unfold headers_end. destruct (match b_ph s with HpHeadersBegin => _ | HpTrailersBegin => _ | _ => _ end) as [[h' ok']|e|]; cbn; auto.
      destruct ok'; [|cbn; auto]. destruct (transit _ _ _ _); cbn; auto. apply suf_skipn. }
    destruct r as [sc v rest0|sc rest0|sc|d' sc|e d' sc|]; try exact Logic.I; try (apply HE).
    + destruct (e_full E); cbn [s_suf b_fail]; auto. 
      destruct DS as [c0 DS]. exists c0. rewrite app_assoc, <- DS. symmetry. apply firstn_skipn.
    + destruct (_ =? 0); [apply HE|cbn; auto].
  - cbv zeta. destruct (_ =? 0); cbn; auto. apply suf_skipn.
  - cbn; auto.
Qed.
Lemma b_read_suf pre E s p fin : match b_read pre E s p fin with RStop _ rest _ => suf rest p | _ => True end.
Proof.
  unfold b_read, b_run, run. generalize (S (measure 2 b_rank s p)) as f. intros f.
  assert (R : forall s p busy, match run_fuel (bstep pre fin E) f s p busy with RStop _ rest _ => suf rest p | _ => True end).
  { induction f as [|f IH]; intros s0 p0 busy; [destruct p0, busy; cbn; auto|].
    assert (D : (p0 = [] /\ busy = false) \/ forall g : bst -> list Z -> sres bst bev, run_fuel g (S f) s0 p0 busy = turn g s0 p0 (run_fuel g f)).
    { destruct p0; [destruct busy|]; auto. }
    destruct D as [[-> ->]|D]; [cbn; auto|]. rewrite D. unfold turn.
    pose proof (bstep_suf pre fin E s0 p0) as B. destruct (bstep pre fin E s0 p0) as [s' r b ev| | | |]; auto. cbn in B.
    specialize (IH s' r b). destruct (run_fuel (bstep pre fin E) f s' r b); cbn; auto. eapply suf_trans; eauto. }
  specialize (R s p false). destruct (run_fuel _ _ _ _ _); auto. destruct fin; auto.
  unfold b_finish. destruct (b_rd s0); auto. destruct (negb _); auto. destruct (transit _ _ _ _); auto.
Qed.
