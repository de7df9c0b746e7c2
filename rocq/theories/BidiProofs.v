From Verif Require Import Base BaseLemmas ConvModel RdVarint QpackTabModel QpackDecModel QpackDynProofs QpackDecProofs
  QpackSecProofs QpackHistModel QpackHistProofs QpackCutProofs HttpModel Chunk Chunk2 SecGood BidiModel.
Open Scope Z_scope.

Definition at_frame (ph : hphase) : Prop :=
  match ph with HpInitial | HpHeadersEnd | HpDataEnd | HpTrailersEnd | HpEnd => True | _ => False end.
Definition ph_ok (s : bst) : Prop :=
  match b_rd s with
  | FType | FLen | FIgnFrame => at_frame (b_ph s)
  | FData => b_ph s = HpDataBegin /\ 0 < b_left s
  | FHeaders => b_ph s = HpHeadersBegin \/ b_ph s = HpTrailersBegin
  | FIgnRest => True
  end.
Record b_inv (s : bst) : Prop := mk_binv {
  bi_rv : rv_inv (b_rv s);
  bi_left : 0 <= b_left s;
  bi_ph : ph_ok s;
  bi_dec : es_inv (b_dec s);
  bi_bad : bad (d_ctx (b_dec s)) = false;
  bi_sec : sec_ok (d_ctx (b_dec s)) (b_sctx s);
  bi_id : 0 <= s_id (b_sctx s) < 2 ^ 62 }.
Definition b_ce (s : bst) : Prop := b_rd s = FIgnFrame.
Definition b_sok pre E := step_ok (bstep pre false E) 2 b_rank b_inv b_ce.

Lemma sec_ok_init c id : sec_ok c (sctx_init id).
Proof. split; [apply rs_inv_init|exact I]. Qed.
Lemma bst_init_inv id h d : es_inv d -> bad (d_ctx d) = false -> 0 <= id < 2 ^ 62 -> b_inv (bst_init id h d).
Proof.
  intros A B C. constructor; cbn [bst_init b_rv b_left b_dec b_sctx]; auto; try lia.
  - apply rv_inv_reset.
  - exact I.
  - apply sec_ok_init.
Qed.
Lemma dead_inv : b_inv bst_dead.
Proof. apply bst_init_inv; [apply es_inv_init; lia|reflexivity|lia]. Qed.

Lemma fail_ok pre E s a e ev : (forall b, bytes b -> bstep pre false E s (a ++ b) = b_fail e ev) -> b_sok pre E s a (b_fail e ev).
Proof. intros H. split; [apply dead_inv|exact H]. Qed.

Lemma on_headers_app sf l1 : forall h l2 rq tr cp,
  on_headers sf h (l1 ++ l2) rq tr cp =
  let '(h1, o1, ok1) := on_headers sf h l1 rq tr cp in
  if ok1 then let '(h2, o2, ok2) := on_headers sf h1 l2 rq tr cp in (h2, o1 ++ o2, ok2) else (h1, o1, false).
Proof.
  induction l1 as [|f l1 IH]; intros h l2 rq tr cp; cbn [on_headers app].
  - destruct (on_headers sf h l2 rq tr cp) as [[h2 o2] ok2]. reflexivity.
  - destruct (on_header sf h f rq tr cp) as [h' [| |]]; [|apply IH|reflexivity].
    rewrite IH. destruct (on_headers sf h' l1 rq tr cp) as [[h1 o1] [|]]; [|reflexivity].
    destruct (on_headers sf h1 l2 rq tr cp) as [[h2 o2] ok2]. reflexivity.
Qed.

Lemma b_inv_set s r rv ty lft ph c :
  b_inv s -> rv_inv rv -> 0 <= lft ->
  ph_ok (b_setrd s r rv ty lft ph c) -> b_inv (b_setrd s r rv ty lft ph c).
Proof. intros [A B C D F G H] Hr Hl Hp. constructor; auto. Qed.
Lemma b_inv_reset s ph h c : b_inv s -> at_frame ph -> b_inv (b_reset s ph h c).
Proof. intros [A B C D F G H] Hp. constructor; auto; [apply rv_inv_reset|cbn; lia]. Qed.

(* ---- frame headers ---- *)
Lemma transit_no_abort rq ph h ev : at_frame ph -> ev <> HeDataEnd -> ev <> HeHeadersEnd -> transit rq ph h ev <> Abort.
Proof.
  intros A N1 N2. destruct ph; cbn in A; try contradiction; destruct ev; try congruence; cbn [transit]; try discriminate;
    repeat match goal with |- context [if ?X then _ else _] => destruct X end; discriminate.
Qed.
Lemma transit_data rq ph h ph' : transit rq ph h HeDataBegin = Ok ph' -> ph' = HpDataBegin.
Proof. destruct ph; cbn [transit]; try discriminate; [destruct (_ && _); [discriminate|]|]; intros H; injection H as <-; auto. Qed.
Lemma transit_headers rq ph h ph' : transit rq ph h HeHeadersBegin = Ok ph' -> ph' = HpHeadersBegin \/ ph' = HpTrailersBegin.
Proof.
  destruct ph; cbn [transit]; try discriminate; repeat match goal with |- context [if ?X then _ else _] => destruct X end;
    try discriminate; intros H; injection H as <-; auto.
Qed.

Lemma frame_start_ok pre E s v a rest c : b_inv s -> b_rd s = FLen -> 0 <= v -> bytes rest ->
  (length rest < length a)%nat ->
  (forall b, bytes b -> bstep pre false E s (a ++ b) = frame_start E s v (rest ++ b) c) ->
  b_sok pre E s a (frame_start E s v rest c).
Proof.
  intros Hi Hrd Hv Hr Hl Heq. pose proof Hi as [A B C D F G H]. unfold ph_ok in C. rewrite Hrd in C.
  assert (RK : b_rank s = 0%nat) by (unfold b_rank; rewrite Hrd; auto).
  assert (GO : forall s' busy ev, b_inv s' -> (busy = true -> b_ce s') -> (b_rank s' <= 1)%nat ->
    (forall b, bytes b -> frame_start E s v (rest ++ b) c = SGo s' (rest ++ b) busy ev) ->
    b_sok pre E s a (SGo s' rest busy ev)).
  { intros s' busy ev I1 I2 I3 I4. split; [auto|]. split; [auto|]. split; [unfold measure; lia|]. split; [auto|].
    intros b Hb. rewrite Heq by auto. auto. }
  unfold frame_start in *. cbv zeta in *.
  pose proof (transit_no_abort (e_req E) (b_ph s) (b_http s) HeDataBegin C ltac:(discriminate) ltac:(discriminate)) as N1.
  pose proof (transit_no_abort (e_req E) (b_ph s) (b_http s) HeHeadersBegin C ltac:(discriminate) ltac:(discriminate)) as N2.
  destruct (b_ty s =? FRAME_DATA).
  { destruct (transit (e_req E) (b_ph s) (b_http s) HeDataBegin) as [ph|e|] eqn:T; [|apply fail_ok; auto|congruence].
    apply transit_data in T. subst ph. destruct (Z.eqb_spec v 0) as [->|Hv0].
    - cbn [transit] in *. apply GO; auto; [apply b_inv_reset; cbn; auto|discriminate].
    - apply GO; auto; [|discriminate]. apply b_inv_set; auto; [apply rv_inv_reset|]. cbn. split; [auto|lia]. }
  destruct (b_ty s =? FRAME_HEADERS).
  { destruct (transit (e_req E) (b_ph s) (b_http s) HeHeadersBegin) as [ph|e|] eqn:T; [|apply fail_ok; auto|congruence].
    apply transit_headers in T. destruct (Z.eqb_spec v 0) as [->|Hv0].
    - destruct T as [-> | ->]; cbn [transit empty_headers_allowed] in *; [apply fail_ok; auto|].
      apply GO; auto; [apply b_inv_reset; cbn; auto|discriminate].
    - destruct T as [-> | ->]; (apply GO; auto; [|discriminate]; apply b_inv_set; auto; [apply rv_inv_reset|]); cbn; auto. }
  destruct (refused (b_ty s)); [apply fail_ok; auto|].
  apply GO; auto; [|intros _; reflexivity]. apply b_inv_set; auto. apply rv_inv_reset.
Qed.

(* ---- DATA ---- *)
Lemma zmin_app (l : Z) (a b : list Z) : l <= zlen a -> Z.min l (zlen (a ++ b)) = Z.min l (zlen a).
Proof. intros H. rewrite zlen_app. pose proof (zlen_nonneg _ b). lia. Qed.

Lemma data_ok E s a : b_inv s -> b_rd s = FData -> bytes a -> a <> [] -> b_sok true E s a (data_step true E s a).
Proof.
  intros Hi Hrd Ha Hne. pose proof Hi as [A B C D F G H]. unfold ph_ok in C. rewrite Hrd in C. destruct C as [C1 C2].
  assert (ES : forall x, bstep true false E s x = data_step true E s x) by (intros; unfold bstep; rewrite Hrd; auto).
  assert (RK : b_rank s = 0%nat) by (unfold b_rank; rewrite Hrd; auto).
  assert (Ha1 : 1 <= zlen a) by (destruct a; [congruence|]; rewrite zlen_cons; pose proof (zlen_nonneg _ a); lia).
  destruct (Z.leb_spec (b_left s) (zlen a)) as [Hl|Hl].
  - (* the frame ends inside a *)
    assert (EQ : forall b, data_step true E s (a ++ b) =
      match data_step true E s a with SGo s' r bz ev => SGo s' (r ++ b) bz ev | x => x end).
    { intros b. unfold data_step. cbv zeta. rewrite zmin_app by auto. rewrite Z.min_l by auto.
      rewrite firstn_app, skipn_app.
      replace (Z.to_nat (b_left s) - length a)%nat with 0%nat by (unfold zlen in Hl; lia). rewrite firstn_O, app_nil_r. cbn [skipn].
      unfold on_data_chunk. cbv zeta. rewrite Z.sub_diag. cbn [Z.eqb].
      destruct (negb _); [rewrite C1; cbn [transit]; reflexivity|]. reflexivity. }
    revert EQ. unfold data_step at 2 3. cbv zeta. rewrite Z.min_l by auto. unfold on_data_chunk. cbv zeta.
    rewrite Z.sub_diag. cbn [Z.eqb]. destruct (negb _) eqn:Ok.
    + rewrite C1. cbn [transit]. intros EQ. split; [apply b_inv_reset; cbn; auto|]. split; [apply bytes_skipn; auto|].
      split; [|split; [discriminate|intros; rewrite ES; auto]].
      unfold measure. rewrite RK, skipn_length. cbn [b_rank b_reset b_rd]. unfold zlen in *. lia.
    + intros EQ. apply fail_ok. intros. rewrite ES, EQ. reflexivity.
  - (* a is inside the frame *)
    unfold data_step. cbv zeta. rewrite Z.min_r by lia. rewrite zlen_length, firstn_all.
    unfold on_data_chunk. cbv zeta.
    set (bad0 := h_final (hs_recv (b_http s) (h_recv (b_http s) + zlen a)) || _).
    destruct (negb bad0) eqn:Ok.
    + destruct (Z.eqb_spec (b_left s - zlen a) 0) as [Hz|_]; [lia|].
      set (s' := mk_bst _ _ _ _ _ _ _ _ _ _ _).
      assert (I' : b_inv s'). { constructor; auto; [cbn; lia|]. unfold ph_ok. cbn. split; [auto|lia]. }
      split; [exact I'|]. intros b Hb Hbn. rewrite ES.
      assert (ES' : bstep true false E s' b = data_step true E s' b) by reflexivity. rewrite ES'. clear ES'.
      unfold data_step. cbv zeta. cbn [s' b_left b_http b_ph b_rv b_ty b_sctx b_dec b_blk b_err b_cons].
      rewrite zlen_app.
      replace (Z.min (b_left s) (zlen a + zlen b)) with (zlen a + Z.min (b_left s - zlen a) (zlen b)) by lia.
      set (m := Z.min (b_left s - zlen a) (zlen b)). assert (Hm : 0 <= m) by (pose proof (zlen_nonneg _ b); lia).
      replace (Z.to_nat (zlen a + m)) with (length a + Z.to_nat m)%nat by (unfold zlen; lia).
      rewrite firstn_app_2. rewrite skipn_app, (skipn_all2 a) by lia. cbn [app].
      replace (length a + Z.to_nat m - length a)%nat with (Z.to_nat m) by lia.
      unfold on_data_chunk. cbv zeta. cbn [h_recv hs_recv h_clen h_final].
      rewrite Z.add_assoc. replace (b_left s - (zlen a + m)) with (b_left s - zlen a - m) by lia.
      replace (hs_recv (hs_recv (b_http s) (h_recv (b_http s) + zlen a)) (h_recv (b_http s) + zlen a + m))
        with (hs_recv (b_http s) (h_recv (b_http s) + zlen a + m)) by reflexivity.
      destruct (negb (h_final (b_http s) || _)) eqn:Ok2.
      * destruct (_ =? 0).
        -- rewrite C1. cbn [transit]. cbn [sev]. rewrite map_app. reflexivity.
        -- cbn [sev]. rewrite map_app. reflexivity.
      * cbn [sev b_fail]. unfold b_fail. f_equal. rewrite <- map_app. f_equal.
        assert (Hfit : h_final (b_http s) = false /\ zlen a <= h_clen (b_http s) - h_recv (b_http s)).
        { unfold bad0 in Ok. cbn [hs_recv h_final h_clen h_recv] in Ok. rewrite negb_true_iff, orb_false_iff in Ok.
          rewrite negb_false_iff, orb_true_iff in Ok2. destruct Ok as [O1 O2]. split; [auto|].
          destruct Ok2 as [O3|O3]; [congruence|].
          destruct (negb (h_clen (b_http s) =? -1)); [|discriminate]. cbn [andb] in *. rewrite Z.gtb_ltb in O2. lia. }
        destruct Hfit as [Hf Hfit]. unfold fits. cbn [hs_recv h_final h_clen h_recv]. rewrite Hf.
        replace (Z.to_nat (h_clen (b_http s) - h_recv (b_http s))) with
          (length a + Z.to_nat (h_clen (b_http s) - (h_recv (b_http s) + zlen a)))%nat by (unfold zlen in *; lia).
        apply firstn_app_2.
    + apply fail_ok. intros b Hb. rewrite ES. unfold data_step. cbv zeta. rewrite zlen_app.
      pose proof (zlen_nonneg _ b) as Hb0. set (m := Z.min (b_left s) (zlen a + zlen b)).
      assert (Hm : zlen a <= m) by (unfold m; lia). unfold on_data_chunk. cbv zeta. cbn [h_recv hs_recv h_clen h_final].
      assert (Ok2 : negb (h_final (b_http s) || (negb (h_clen (b_http s) =? -1) && (h_recv (b_http s) + m >? h_clen (b_http s)))) = false).
      { unfold bad0 in Ok. cbn [hs_recv h_final h_clen h_recv] in Ok. rewrite negb_false_iff, orb_true_iff in *.
        destruct Ok as [Ok|Ok]; [left; auto|]. right. rewrite andb_true_iff in *. destruct Ok. split; [auto|].
        rewrite Z.gtb_ltb in *. lia. }
      rewrite Ok2. unfold b_fail. f_equal. f_equal.
      replace (Z.to_nat m) with (length a + (Z.to_nat m - length a))%nat by (unfold zlen in *; lia).
      rewrite firstn_app_2, firstn_app.
      assert (Hz : (fits (b_http s) - length a = 0)%nat).
      { unfold fits. unfold bad0 in Ok. cbn [hs_recv h_final h_clen h_recv] in Ok.
        rewrite negb_false_iff, orb_true_iff in Ok. destruct (h_final (b_http s)); [lia|].
        destruct Ok as [Ok|Ok]; [discriminate|]. rewrite andb_true_iff in Ok. destruct Ok as [_ Ok].
        rewrite Z.gtb_ltb in Ok. unfold zlen in *. lia. }
      rewrite Hz, firstn_O, app_nil_r. reflexivity.
Qed.

(* ---- HEADERS ---- *)
Definition trl (s : bst) : bool := match b_ph s with HpTrailersBegin => true | _ => false end.
(* the payload bytes of the frame that are in p *)
Lemma headers_split s p : 0 <= b_left s ->
  let n := Z.min (b_left s) (zlen p) in
  bytes p -> bytes (firstn (Z.to_nat n) p) /\ bytes (skipn (Z.to_nat n) p) /\ zlen (firstn (Z.to_nat n) p) = n.
Proof.
  intros Hl n Hb. split; [apply bytes_firstn; auto|]. split; [apply bytes_skipn; auto|].
  pose proof (zlen_nonneg _ p). unfold zlen in *. rewrite firstn_length_le; lia.
Qed.

Lemma mal_more pre E s h a b evs :
  malformed s h (a ++ b) evs =
  sev (evs ++ [BvStopSending H3_MESSAGE_ERROR; BvResetStream H3_MESSAGE_ERROR])
    (bstep pre false E (mk_bst FIgnRest rv_reset 0 0 (b_ph s) h (sctx_init 0) (b_dec s) false true (b_cons s + zlen a)) b).
Proof.
  unfold malformed, bstep. cbn [b_rd sev]. rewrite app_nil_r. unfold b_setrd.
  cbn [b_rv b_ty b_left b_ph b_http b_sctx b_dec b_blk b_err b_cons]. rewrite zlen_app, Z.add_assoc. reflexivity.
Qed.
Lemma headers_end_ok pre E s h sc d a rest evs : b_inv s -> b_rd s = FHeaders -> bytes rest ->
  (length rest <= length a)%nat -> bytes a ->
  es_inv d -> bad (d_ctx d) = false -> sec_ok (d_ctx d) sc -> 0 <= s_id sc < 2 ^ 62 ->
  forall c, (forall b, bytes b -> bstep pre false E s (a ++ b) = headers_end E s h sc d (a ++ b) (rest ++ b) c evs) ->
  b_sok pre E s a (headers_end E s h sc d a rest c evs).
Proof.
  intros Hi Hrd Hr Hl Ha D1 D2 D3 D4 c Heq. pose proof Hi as [A B C D F G H]. unfold ph_ok in C. rewrite Hrd in C.
  assert (RK : b_rank s = 1%nat) by (unfold b_rank; rewrite Hrd; auto).
  assert (MAL : forall h' s0, s0 = mk_bst (b_rd s) (b_rv s) (b_ty s) (b_left s) (b_ph s) h sc d (b_blk s) (b_err s) (b_cons s) ->
    (forall b, bytes b -> bstep pre false E s (a ++ b) = malformed s0 h' (a ++ b) evs) ->
    b_sok pre E s a (malformed s0 h' a evs)).
  { intros h' s0 -> HM. split.
    - constructor; cbn [b_rv b_left b_dec b_sctx]; auto; try lia; [apply rv_inv_reset|exact I|apply sec_ok_init|cbn; lia].
    - intros b Hb Hbn. rewrite HM by auto. apply mal_more. }
  unfold headers_end in *. cbv zeta in *.
  assert (K : forall h' ok, (forall b, bytes b -> bstep pre false E s (a ++ b) = 
     (if (ok : bool) then
      match transit (e_req E) (b_ph s) h' HeHeadersEnd with
      | Ok ph => SGo (mk_bst FType rv_reset 0 0 ph h' sc d (b_blk s) (b_err s) (b_cons s + c)) (rest ++ b) false
                     (evs ++ (if negb (trl s) && e_req E && h_prio h' && negb (e_nopri E) then [BvPriority (h_pri h')] else []) ++ [if trl s then BvEndTrailers else BvEndHeaders])
      | _ => SAbort
      end
    else malformed (mk_bst (b_rd s) (b_rv s) (b_ty s) (b_left s) (b_ph s) h sc d (b_blk s) (b_err s) (b_cons s)) h' (a ++ b) evs)) ->
    b_sok pre E s a (if ok then
      match transit (e_req E) (b_ph s) h' HeHeadersEnd with
      | Ok ph => SGo (mk_bst FType rv_reset 0 0 ph h' sc d (b_blk s) (b_err s) (b_cons s + c)) rest false
                     (evs ++ (if negb (trl s) && e_req E && h_prio h' && negb (e_nopri E) then [BvPriority (h_pri h')] else []) ++ [if trl s then BvEndTrailers else BvEndHeaders])
      | _ => SAbort
      end
    else malformed (mk_bst (b_rd s) (b_rv s) (b_ty s) (b_left s) (b_ph s) h sc d (b_blk s) (b_err s) (b_cons s)) h' a evs)).
  { intros h' ok Hk. destruct ok; [|eapply MAL; eauto].
    assert (GO : forall ph, at_frame ph -> transit (e_req E) (b_ph s) h' HeHeadersEnd = Ok ph ->
      b_sok pre E s a (SGo (mk_bst FType rv_reset 0 0 ph h' sc d (b_blk s) (b_err s) (b_cons s + c)) rest false
                     (evs ++ (if negb (trl s) && e_req E && h_prio h' && negb (e_nopri E) then [BvPriority (h_pri h')] else []) ++ [if trl s then BvEndTrailers else BvEndHeaders]))).
    { intros ph Hph Ht. split; [|split; [auto|split; [|split; [discriminate|]]]].
      - constructor; cbn [b_rv b_left b_dec b_sctx]; auto; try lia. apply rv_inv_reset.
      - unfold measure. rewrite RK. cbn [b_rank b_rd]. lia.
      - intros b Hb. rewrite Hk by auto. rewrite Ht. reflexivity. }
    destruct C as [C|C]; rewrite C in *; cbn [transit] in *; apply GO; cbn; auto. }
  destruct C as [C|C].
  - specialize (K (fst (if e_req E then on_request_headers h else on_response_headers h)) (snd (if e_req E then on_request_headers h else on_response_headers h))).
    unfold trl in K. rewrite C in *. destruct (if e_req E then on_request_headers h else on_response_headers h) as [h' ok]. apply K; auto.
  - specialize (K h true). unfold trl in K. rewrite C in *. apply K; auto.
Qed.

Lemma headers_ok pre E s a : b_inv s -> b_rd s = FHeaders -> bytes a -> a <> [] -> b_sok pre E s a (headers_step E s a).
Proof.
  intros Hi Hrd Ha Hne. pose proof Hi as [A B C D F G H]. unfold ph_ok in C. rewrite Hrd in C.
  assert (ES : forall x, bstep pre false E s x = headers_step E s x) by (intros; unfold bstep; rewrite Hrd; auto).
  assert (RK : b_rank s = 1%nat) by (unfold b_rank; rewrite Hrd; auto).
  destruct (headers_split s a B Ha) as (S1 & S2 & S3). set (n := Z.min (b_left s) (zlen a)) in *.
  pose proof (dsec_good (b_dec s) (b_sctx s) (firstn (Z.to_nat n) a) (n =? b_left s) D F G S1) as [_ Gd].
  assert (MAL : forall h' evs,
    (forall b, bytes b -> bstep pre false E s (a ++ b) = malformed s h' (a ++ b) evs) ->
    b_sok pre E s a (malformed s h' a evs)).
  { intros h' evs HM. split.
    - constructor; cbn [b_rv b_left b_dec b_sctx]; auto; try lia; [apply rv_inv_reset|exact I|apply sec_ok_init|cbn; lia].
    - intros b Hb Hbn. rewrite HM by auto. apply mal_more. }
  assert (FIN : forall d' sc, read_request_fin (b_dec s) sc = Ok d' -> s_id sc = s_id (b_sctx s) ->
     es_inv d' /\ bad (d_ctx d') = false /\ sec_ok (d_ctx d') (sctx_init (s_id sc)) /\ 0 <= s_id (sctx_init (s_id sc)) < 2 ^ 62).
  { intros d' sc Hf Hid. destruct (fin_cases _ _ _ Hf ltac:(rewrite Hid; auto)) as (F1 & F2 & F3 & F4 & _).
    split; [|split; [congruence|split; [apply sec_ok_init|cbn; rewrite Hid; auto]]].
    destruct D as [D1 D2]. split; [rewrite F1; auto|].
    assert (Eop : op_val d' = op_val (b_dec s)) by (unfold op_val; rewrite F1, F3, F4; reflexivity). rewrite Eop.
    rewrite F2, F3, F4. cbv zeta. exact D2. }
  destruct (Z.leb_spec (b_left s) (zlen a)) as [Hl|Hl].
  - (* the frame ends inside a *)
    assert (En : n = b_left s) by lia.
    assert (PR : forall b, Z.min (b_left s) (zlen (a ++ b)) = n /\ firstn (Z.to_nat n) (a ++ b) = firstn (Z.to_nat n) a /\
      skipn (Z.to_nat n) (a ++ b) = skipn (Z.to_nat n) a ++ b).
    { intros b. rewrite zmin_app by auto. split; [auto|]. rewrite firstn_app, skipn_app.
      replace (Z.to_nat n - length a)%nat with 0%nat by (unfold zlen in *; lia). rewrite firstn_O, app_nil_r. auto. }
    assert (Lr : (length (skipn (Z.to_nat n) a) <= length a)%nat) by (rewrite skipn_length; lia).
    unfold headers_step. cbv zeta. fold n. fold (trl s).
    destruct (decode_section (b_dec s) (b_sctx s) (firstn (Z.to_nat n) a) (n =? b_left s)) as [vs r] eqn:Edec.
    destruct (on_headers (e_sf E) (b_http s) vs (e_req E) (trl s) (e_ext E)) as [[h out] ok] eqn:Eh.
    assert (EX : forall b, bytes b -> bstep pre false E s (a ++ b) =
      (if negb ok then malformed s h (a ++ b) (map (if trl s then BvTrailer else BvHeader) out) else
       match r with
    | RqNone sc =>
      if b_left s - n =? 0 then headers_end E s h sc (b_dec s) (a ++ b) (skipn (Z.to_nat n) a ++ b) n (map (if trl s then BvTrailer else BvHeader) out)
      else SMore (mk_bst FHeaders (b_rv s) (b_ty s) (b_left s - n) (b_ph s) h sc (b_dec s) (b_blk s) (b_err s) (b_cons s + n)) (map (if trl s then BvTrailer else BvHeader) out)
    | RqFinal d sc => headers_end E s h (sctx_init (s_id sc)) d (a ++ b) (skipn (Z.to_nat n) a ++ b) n (map (if trl s then BvTrailer else BvHeader) out)
    | RqBlocked sc rest0 =>
      if e_full E then b_fail ERR_QPACK_DECOMPRESSION_FAILED (map (if trl s then BvTrailer else BvHeader) out)
      else
        SStop (mk_bst FHeaders (b_rv s) (b_ty s) (b_left s - (n - zlen rest0)) (b_ph s) h sc (b_dec s) true (b_err s) (b_cons s + (n - zlen rest0)))
              (rest0 ++ (skipn (Z.to_nat n) a ++ b)) (map (if trl s then BvTrailer else BvHeader) out)
    | RqErr e _ _ => b_fail e (map (if trl s then BvTrailer else BvHeader) out)
    | RqEmit _ _ _ | RqAbort => SAbort
    end)).
    { intros b Hb. rewrite ES. unfold headers_step. cbv zeta. destruct (PR b) as (P1 & P2 & P3).
      rewrite P1, P2, P3. fold (trl s). rewrite Edec, Eh. reflexivity. }
    cbn [snd] in Gd. destruct ok; cbn [negb] in *; [|apply MAL; auto].
    destruct r as [sc v rest|sc rest0|sc|d' sc|e d' sc|]; try contradiction.
    + (* blocked *)
      destruct Gd as (G1 & G2 & G3 & G4). destruct (e_full E); [apply fail_ok; auto|].
      assert (zlen rest0 <= n) by (rewrite <- S3; unfold zlen; lia). pose proof (zlen_nonneg _ rest0).
      split; [|split; [apply bytes_app; auto|intros b Hb; rewrite EX by auto; rewrite app_assoc; reflexivity]].
      constructor; cbn [b_rv b_left b_dec b_sctx]; auto; try lia.
    + destruct Gd as (G1 & _). rewrite En, Z.eqb_refl in G1. discriminate.
    + destruct Gd as (_ & G1 & G2 & G3). destruct (FIN d' sc G3 G2) as (F1 & F2 & F3 & F4).
      apply headers_end_ok; auto.
    + apply fail_ok; auto.
  - (* a is inside the frame *)
    assert (En : n = zlen a) by lia. 
    assert (En2 : n =? b_left s = false) by (apply Z.eqb_neq; lia).
    assert (Ef : firstn (Z.to_nat n) a = a) by (rewrite En, zlen_length; apply firstn_all).
    assert (Er : skipn (Z.to_nat n) a = []) by (rewrite En, zlen_length; apply skipn_all).
    unfold headers_step. cbv zeta. fold n. fold (trl s). rewrite Ef, Er, En2 in *.
    destruct (decode_section (b_dec s) (b_sctx s) a false) as [vs r] eqn:Edec.
    destruct (on_headers (e_sf E) (b_http s) vs (e_req E) (trl s) (e_ext E)) as [[h out] ok] eqn:Eh.
    cbn [snd] in Gd.
    assert (CUT : forall b, bytes b -> exists m, m = Z.min (b_left s - n) (zlen b) /\ 0 <= m /\
      Z.min (b_left s) (zlen (a ++ b)) = n + m /\ firstn (Z.to_nat (n + m)) (a ++ b) = a ++ firstn (Z.to_nat m) b /\
      skipn (Z.to_nat (n + m)) (a ++ b) = skipn (Z.to_nat m) b /\ (n + m =? b_left s) = (m =? b_left s - n) /\
      decode_section (b_dec s) (b_sctx s) (a ++ firstn (Z.to_nat m) b) (m =? b_left s - n) =
      match r with
      | RqNone s' => let (vs', r') := decode_section (b_dec s) s' (firstn (Z.to_nat m) b) (m =? b_left s - n) in (vs ++ vs', r')
      | RqBlocked s' rest => (vs, RqBlocked s' (rest ++ firstn (Z.to_nat m) b))
      | r => (vs, r)
      end).
    { intros b Hb. exists (Z.min (b_left s - n) (zlen b)). split; [auto|]. pose proof (zlen_nonneg _ b) as Hb0.
      set (m := Z.min (b_left s - n) (zlen b)). assert (Hm : 0 <= m) by lia. split; [auto|].
      split; [rewrite zlen_app; lia|].
      replace (Z.to_nat (n + m)) with (length a + Z.to_nat m)%nat by (rewrite En; unfold zlen; lia).
      split; [apply firstn_app_2|]. split.
      { rewrite skipn_app, (skipn_all2 a) by lia. cbn [app]. f_equal. lia. }
      split. { destruct (Z.eqb_spec (n + m) (b_left s)), (Z.eqb_spec m (b_left s - n)); auto; lia. }
      rewrite decode_section_cut; auto; [|apply bytes_firstn; auto]. rewrite Edec. destruct r; reflexivity. }
    assert (BAD : ok = false -> forall b, bytes b -> bstep pre false E s (a ++ b) = malformed s h (a ++ b) (map (if trl s then BvTrailer else BvHeader) out)).
    { intros Eo b Hb. subst ok. rewrite ES. destruct (CUT b Hb) as (m & Em & M1 & M2 & M3 & M4 & M5 & M6).
      unfold headers_step. cbv zeta. rewrite M2, M3, M4, M5, M6. fold (trl s).
      destruct r as [sc v rest|sc rest0|sc|d' sc|e d' sc|]; try (rewrite Eh; reflexivity).
      destruct (decode_section (b_dec s) sc (firstn (Z.to_nat m) b) (m =? b_left s - n)) as [vs' r'].
      rewrite on_headers_app, Eh. reflexivity. }
    destruct ok; cbn [negb]; [|apply MAL; auto]. clear BAD.
    destruct r as [sc v rest|sc rest0|sc|d' sc|e d' sc|]; try contradiction.
    + destruct Gd as (G1 & G2 & G3 & G4).
      assert (zlen rest0 <= n) by (rewrite <- S3; unfold zlen; lia). pose proof (zlen_nonneg _ rest0).
      destruct (e_full E) eqn:Ee.
      { apply fail_ok. intros b Hb. rewrite ES. destruct (CUT b Hb) as (m & Em & M1 & M2 & M3 & M4 & M5 & M6).
        unfold headers_step. cbv zeta. rewrite M2, M3, M4, M5, M6. fold (trl s). rewrite Eh, Ee. reflexivity. }
      split; [|split; [apply bytes_app; split; [auto|constructor]|]].
      { constructor; cbn [b_rv b_left b_dec b_sctx]; auto; try lia.  }
      intros b Hb. rewrite ES. destruct (CUT b Hb) as (m & Em & M1 & M2 & M3 & M4 & M5 & M6).
      unfold headers_step. cbv zeta. rewrite M2, M3, M4, M5, M6. fold (trl s). rewrite Eh, Ee. cbn [negb].
      rewrite zlen_app. assert (Ez : zlen (firstn (Z.to_nat m) b) = m).
      { unfold zlen. rewrite firstn_length_le; [lia|]. pose proof (zlen_nonneg _ b). unfold zlen in *. lia. }
      rewrite Ez. replace (n + m - (zlen rest0 + m)) with (n - zlen rest0) by lia.
      rewrite <- !app_assoc, firstn_skipn. reflexivity.
    + destruct Gd as (_ & G1 & G2). destruct (Z.eqb_spec (b_left s - n) 0) as [|_]; [lia|].
      set (s' := mk_bst _ _ _ _ _ _ _ _ _ _ _).
      assert (I' : b_inv s').
      { constructor; cbn [s' b_rv b_left b_dec b_sctx]; auto; try lia. }
      split; [exact I'|]. intros b Hb Hbn. rewrite ES.
      change (bstep pre false E s' b) with (headers_step E s' b).
      destruct (CUT b Hb) as (m & Em & M1 & M2 & M3 & M4 & M5 & M6).
      unfold headers_step. cbv zeta. rewrite M2, M3, M4, M5, M6.
      cbn [s' b_left b_http b_ph b_rv b_ty b_sctx b_dec b_blk b_err b_cons]. rewrite <- Em. fold (trl s).
      destruct (decode_section (b_dec s) sc (firstn (Z.to_nat m) b) (m =? b_left s - n)) as [vs' r'].
      rewrite on_headers_app, Eh.
      destruct (on_headers (e_sf E) h vs' (e_req E) (trl s) (e_ext E)) as [[h2 o2] ok2].
      rewrite map_app. destruct ok2; cbn [negb].
      2: { unfold malformed. cbn [sev b_ph b_dec b_cons]. rewrite <- app_assoc.
           replace (b_cons s + zlen (a ++ b)) with (b_cons s + n + zlen b) by (rewrite zlen_app; lia). reflexivity. }
      replace (b_left s - (n + m)) with (b_left s - n - m) by lia.
      assert (HE : forall sc2 d2 x, headers_end E s h2 sc2 d2 (a ++ b) x (n + m) (map (if trl s then BvTrailer else BvHeader) out ++ map (if trl s then BvTrailer else BvHeader) o2) =
        sev (map (if trl s then BvTrailer else BvHeader) out) (headers_end E s' h2 sc2 d2 b x m (map (if trl s then BvTrailer else BvHeader) o2))).
      { intros sc2 d2 x. unfold headers_end. cbn [s' b_ph b_blk b_err b_cons]. cbv zeta.
        destruct (b_ph s); try reflexivity.
        - destruct (if e_req E then on_request_headers h2 else on_response_headers h2) as [h3 [|]].
          + cbn [transit sev]. rewrite Z.add_assoc, <- !app_assoc. reflexivity.
          + unfold malformed. cbn [sev b_ph b_dec b_cons]. rewrite <- !app_assoc.
            replace (b_cons s + zlen (a ++ b)) with (b_cons s + n + zlen b) by (rewrite zlen_app; lia). reflexivity.
        - cbn [transit sev]. rewrite Z.add_assoc, <- !app_assoc. reflexivity. }
      destruct r' as [sc2 v2 rest2|sc2 rest2|sc2|d2 sc2|e2 d2 sc2|]; try reflexivity.
      * destruct (e_full E); [reflexivity|]. cbn [sev].
        replace (b_left s - (n + m - zlen rest2)) with (b_left s - n - (m - zlen rest2)) by lia.
        replace (b_cons s + (n + m - zlen rest2)) with (b_cons s + n + (m - zlen rest2)) by lia. reflexivity.
      * destruct (b_left s - n - m =? 0); [apply HE|]. cbn [sev]. rewrite Z.add_assoc. reflexivity.
      * apply HE.
    + destruct Gd as (G1 & _). discriminate.
    + apply fail_ok. intros b Hb. rewrite ES. destruct (CUT b Hb) as (m & Em & M1 & M2 & M3 & M4 & M5 & M6).
      unfold headers_step. cbv zeta. rewrite M2, M3, M4, M5, M6. fold (trl s). rewrite Eh. reflexivity.
Qed.

(* ---- every turn ---- *)
Lemma bstep_sok E s a : b_inv s -> bytes a -> runnable b_ce s a -> b_sok true E s a (bstep true false E s a).
Proof.
  intros Hi Ha R. pose proof Hi as [A B C D F G H].
  assert (Hn : a <> [] \/ b_rd s = FIgnFrame) by (destruct R; auto). clear R.
  destruct (b_rd s) eqn:Hrd.
  - destruct Hn as [Hn|]; [|discriminate]. pose proof (rd_varint_ok (b_rv s) a A Ha Hn) as V. unfold vres_ok in V.
    unfold bstep at 1. rewrite Hrd. destruct (rd_varint (b_rv s) a false) as [rv|v rest| |] eqn:Ev; try contradiction.
    + destruct V as (V1 & V2 & V3 & V4). split; [apply b_inv_set; auto; unfold ph_ok in *; rewrite Hrd in C; exact C|].
      intros b Hb Hbn. unfold bstep. rewrite Hrd. cbn [b_rd b_setrd]. rewrite V4 by auto.
      cbn [b_rv b_setrd b_ph b_left b_ty b_cons]. rewrite zlen_app.
      destruct (rd_varint rv b false) as [rv2|v2 rest2| |]; cbn [sev app]; try reflexivity; unfold b_setrd; cbn [b_http b_sctx b_dec b_blk b_err b_cons].
      * rewrite Z.add_assoc. reflexivity.
      * replace (b_cons s + (zlen a + zlen b - zlen rest2)) with (b_cons s + zlen a + (zlen b - zlen rest2)) by lia. reflexivity.
    + destruct V as (V1 & V2 & V3 & V4 & V5). split; [apply b_inv_set; auto; [apply rv_inv_reset|unfold ph_ok in *; rewrite Hrd in C; exact C]|].
      split; [auto|]. split; [unfold measure; cbn [b_rank b_setrd b_rd]; lia|]. split; [discriminate|].
      intros b Hb. unfold bstep. rewrite Hrd, V5 by auto. rewrite !zlen_app.
      replace (zlen a + zlen b - (zlen rest + zlen b)) with (zlen a - zlen rest) by lia. reflexivity.
  - destruct Hn as [Hn|]; [|discriminate]. pose proof (rd_varint_ok (b_rv s) a A Ha Hn) as V. unfold vres_ok in V.
    unfold bstep at 1. rewrite Hrd. destruct (rd_varint (b_rv s) a false) as [rv|v rest| |] eqn:Ev; try contradiction.
    + destruct V as (V1 & V2 & V3 & V4). split; [apply b_inv_set; auto; unfold ph_ok in *; rewrite Hrd in C; exact C|].
      intros b Hb Hbn. unfold bstep. rewrite Hrd. cbn [b_rd b_setrd]. rewrite V4 by auto.
      cbn [b_rv b_setrd b_ph b_left b_ty b_cons]. rewrite zlen_app.
      destruct (rd_varint rv b false) as [rv2|v2 rest2| |]; cbn [sev app]; try reflexivity.
      * unfold b_setrd; cbn [b_http b_sctx b_dec b_blk b_err b_cons]. rewrite Z.add_assoc. reflexivity.
      * unfold frame_start, b_setrd, b_reset. cbn [b_ty b_http b_sctx b_dec b_blk b_err b_cons b_ph]. cbv zeta.
        replace (b_cons s + (zlen a + zlen b - zlen rest2)) with (b_cons s + zlen a + (zlen b - zlen rest2)) by lia.
        repeat (match goal with |- context [match ?X with _ => _ end] => destruct X end; cbn [sev app]; try reflexivity).
    + destruct V as (V1 & V2 & V3 & V4 & V5). apply frame_start_ok; auto; [lia|].
      intros b Hb. unfold bstep. rewrite Hrd, V5 by auto. rewrite !zlen_app.
      replace (zlen a + zlen b - (zlen rest + zlen b)) with (zlen a - zlen rest) by lia. reflexivity.
  - destruct Hn as [Hn|]; [|discriminate]. unfold bstep. rewrite Hrd. apply data_ok; auto.
  - destruct Hn as [Hn|]; [|discriminate]. unfold bstep. rewrite Hrd. apply headers_ok; auto.
  - assert (ES : forall x, bstep true false E s x = let n := Z.min (b_left s) (zlen x) in
      if b_left s - n =? 0 then SGo (b_reset s (b_ph s) (b_http s) n) (skipn (Z.to_nat n) x) false []
      else SMore (b_setrd s FIgnFrame (b_rv s) (b_ty s) (b_left s - n) (b_ph s) n) []) by (intros; unfold bstep; rewrite Hrd; auto).
    rewrite ES. cbv zeta. unfold ph_ok in C. rewrite Hrd in C. pose proof (zlen_nonneg _ a) as Ha0.
    destruct (Z.leb_spec (b_left s) (zlen a)) as [Hl|Hl].
    + rewrite Z.min_l by auto. rewrite Z.sub_diag. cbn [Z.eqb].
      split; [apply b_inv_reset; auto|]. split; [apply bytes_skipn; auto|].
      split; [unfold measure, b_rank at 2; rewrite Hrd, skipn_length; cbn [b_rank b_reset b_rd]; lia|]. split; [discriminate|].
      intros b Hb. rewrite ES. cbv zeta. rewrite zmin_app by auto. rewrite Z.min_l by auto. rewrite Z.sub_diag. cbn [Z.eqb].
      rewrite skipn_app. replace (Z.to_nat (b_left s) - length a)%nat with 0%nat by (unfold zlen in *; lia). reflexivity.
    + rewrite Z.min_r by lia. destruct (Z.eqb_spec (b_left s - zlen a) 0) as [|_]; [lia|].
      split; [apply b_inv_set; auto; lia|].
      intros b Hb Hbn. rewrite ES. unfold bstep. cbn [b_rd b_setrd b_left b_ph b_http b_rv b_ty]. cbv zeta. rewrite zlen_app.
      pose proof (zlen_nonneg _ b) as Hb0.
      replace (Z.min (b_left s) (zlen a + zlen b)) with (zlen a + Z.min (b_left s - zlen a) (zlen b)) by lia.
      set (m := Z.min (b_left s - zlen a) (zlen b)).
      replace (b_left s - (zlen a + m)) with (b_left s - zlen a - m) by lia.
      destruct (_ =? 0); cbn [sev app]; unfold b_reset, b_setrd; cbn [b_http b_sctx b_dec b_blk b_err b_cons b_ph]; rewrite Z.add_assoc; [|reflexivity].
      replace (Z.to_nat (zlen a + m)) with (length a + Z.to_nat m)%nat by (unfold zlen in *; lia).
      rewrite skipn_app, (skipn_all2 a) by lia. cbn [app]. replace (length a + Z.to_nat m - length a)%nat with (Z.to_nat m) by lia. reflexivity.
  - unfold bstep. rewrite Hrd. split; [apply b_inv_set; auto; exact I|].
    intros b Hb Hbn. unfold bstep. rewrite Hrd. cbn [b_rd b_setrd b_left b_ph b_rv b_ty sev app].
    unfold b_setrd; cbn [b_http b_sctx b_dec b_blk b_err b_cons]. rewrite zlen_app, Z.add_assoc. reflexivity.
Qed.
