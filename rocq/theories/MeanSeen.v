(* The ghost record d_seen of the QPACK decoder is exactly what the peer's encoder stream delivered, over histories
   of API calls. *)
From Verif Require Import Base BaseLemmas Chunk ConvModel ConvSpec ConvProofs RdVarint QpackTabModel QpackDecModel QpackHistModel QpackCutProofs HttpModel BidiModel BidiHist BidiSpec
  ControlModel GapModel PqModel TxModel SchedModel ConnModel ConnCtl ConnStep ConnRx ConnWf ConnDecomp ConnHist ConnRead ConnRecv ConnUni.
Open Scope Z_scope.

Notation put := ConnModel.put.
(* ---- the decoder ---- *)
Lemma es_run_seen d p d' ev : es_run d p = ROk d' ev -> d_seen d' = d_seen d.
Proof.
  intros E. replace d with (d_count d (d_unint d) (d_seen d)) in E by (destruct d; reflexivity). rewrite es_run_unint in E. destruct (es_run d p); try discriminate. injection E as <- _. reflexivity.
Qed.
Lemma enc_seen d src d' n : read_encoder d src = (d', Ok n) -> d_seen d' = d_seen d ++ src.
Proof.
  unfold read_encoder. destruct (bad _); [discriminate|]. destruct src as [|b src]; [intros [= <- _]; rewrite app_nil_r; reflexivity|]. cbv zeta. destruct (_ >? _); [discriminate|].
  destruct (es_run _ _) as [d1 ev| | |] eqn:E; try discriminate. intros [= <- _]. apply es_run_seen in E. exact E.
Qed.
Lemma change_seen d src d' : dec_change d src d' -> d_seen d' = d_seen d ++ src.
Proof.
  intros C. destruct C as [src d' n H|n d' l H _|n|id d' H].
  - eapply enc_seen; eauto.
  - rewrite app_nil_r. unfold write_decoder in H. destruct (_ <? _); [discriminate|]. destruct (_ <? _); injection H as <- _; reflexivity.
  - rewrite app_nil_r. reflexivity.
  - rewrite app_nil_r. unfold dec_cancel_stream in H. destruct (_ || _); [discriminate|]. destruct (dbuf_overflow d); [discriminate|]. injection H as <-. reflexivity.
Qed.
Lemma fin_seen d s d' : read_request_fin d s = Ok d' -> d_seen d' = d_seen d.
Proof.
  unfold read_request_fin. intros H. destruct (s_state s); try discriminate. destruct (s_ricnt s =? 0); [injection H as <-; reflexivity|].
  unfold write_section_ack in H. destruct (dbuf_overflow d); [discriminate|]. injection H as <-. reflexivity.
Qed.
Lemma rq_end_seen d s fin : match rq_end d s fin with RqFinal d' _ => d_seen d' = d_seen d | _ => True end.
Proof. unfold rq_end. destruct fin; auto. destruct (read_request_fin d s) eqn:E; auto. eapply fin_seen; eauto. Qed.
Lemma rq_loop_seen f : forall d s p busy fin, match rq_loop f d s p busy fin with RqFinal d' _ => d_seen d' = d_seen d | _ => True end.
Proof.
  induction f as [|f IH]; intros d s p busy fin; cbn [rq_loop].
  - pose proof (rq_end_seen d s fin). destruct p, busy; cbn; auto.
  - assert (X : match match rs_step (d_ctx d) s p with SGo s' rest b [] => rq_loop f d s' rest b fin | SGo s' rest b (v :: _) => RqEmit s' v rest | SMore s' _ => rq_end d s' fin
      | SStop s' rest _ => RqBlocked s' rest | SErr e s' _ => RqErr e (d_fail d) s' | SAbort => RqAbort end with RqFinal d' _ => d_seen d' = d_seen d | _ => True end).
    { destruct (rs_step (d_ctx d) s p) as [s' rest b [|v l]|s' l|s' rest l|e s' l|]; try exact Logic.I; [apply IH | apply rq_end_seen]. }
    pose proof (rq_end_seen d s fin) as Y. destruct p, busy; first [exact X | exact Y | assumption].
Qed.
Lemma decode_all_seen f : forall d s p fin, match snd (decode_all f d s p fin) with RqFinal d' _ => d_seen d' = d_seen d | _ => True end.
Proof.
  induction f as [|f IH]; intros d s p fin; cbn [decode_all]; [exact I|]. assert (L : match read_request d s p fin with RqFinal d' _ => d_seen d' = d_seen d | _ => True end) by (unfold read_request; destruct (bad _); auto; apply rq_loop_seen).
  destruct (read_request d s p fin) as [s' v rest| | | | |]; auto. specialize (IH d s' rest fin). destruct (decode_all f d s' rest fin). exact IH.
Qed.

(* ---- one request stream ---- *)
Definition seenR (s : bst) (ev : list bev) (s' : bst) : Prop := d_seen (b_dec s') = d_seen (b_dec s).
Lemma bstep_seen pre fin E s p : match bstep pre fin E s p with SGo s' _ _ ev | SMore s' ev | SStop s' _ ev => seenR s ev s' | _ => True end.
Proof.
  unfold bstep. destruct (b_rd s) eqn:Rd.
  - destruct (rd_varint _ _ _); cbn; auto; reflexivity.
  - destruct (rd_varint _ _ _); [reflexivity| |exact Logic.I|exact Logic.I]. unfold frame_start, b_fail.
    repeat (match goal with |- context [if ?c then _ else _] => destruct c | |- context [transit ?a ?b ?c ?d] => destruct (transit a b c d) | |- context [match ?c with HpInitial => _ | _ => _ end] => destruct c end; cbv beta iota; auto; try reflexivity).
  - unfold data_step, b_fail. destruct (on_data_chunk _ _) as [h ok]. destruct ok; auto. cbv zeta.
    destruct (_ =? 0); [destruct (transit _ _ _ _); auto|]; reflexivity.
  - unfold headers_step. cbv zeta. set (n := Z.min (b_left s) (zlen p)). unfold decode_section.
    pose proof (decode_all_seen (S (S (length (firstn (Z.to_nat n) p)))) (b_dec s) (b_sctx s) (firstn (Z.to_nat n) p) (n =? b_left s)) as DG.
    destruct (decode_all _ _ _ _ _) as [vs r]. cbn [snd] in DG. destruct (on_headers _ _ _ _ _ _) as [[h out] ok].
    destruct ok; cbn [negb]; [|unfold malformed; reflexivity].
    assert (HE : forall sc d p rest c evs, d_seen d = d_seen (b_dec s) ->
      match headers_end E s h sc d p rest c evs with SGo s' _ _ ev | SStop s' _ ev => seenR s ev s' | SMore s' ev => seenR s ev s' | _ => True end).
    { intros sc d q rest c evs D. unfold headers_end. destruct (match b_ph s with HpHeadersBegin => _ | _ => _ end) as [[h' ok]| |]; auto. destruct ok.
      - destruct (transit _ _ _ _); auto.
      - unfold malformed. exact D. }
    destruct r as [sc v rest0|sc rest0|sc|d' sc|e d' sc|]; try contradiction; auto.
    + destruct (e_full E); [exact Logic.I|]. reflexivity.
    + destruct (_ =? 0); [|reflexivity]. apply HE. reflexivity.
    + apply HE. exact DG.
  - cbv zeta. destruct (_ =? 0); reflexivity.
  - reflexivity.
Qed.
Lemma b_read_seen pre E s p fin : match b_read pre E s p fin with ROk s' ev | RStop s' _ ev => seenR s ev s' | _ => True end.
Proof.
  unfold b_read, b_run, run. pose proof (run_fuel_R (bstep pre fin E) seenR (fun s => eq_refl) (fun a x b y c H1 H2 => eq_trans H2 H1) (bstep_seen pre fin E) (S (measure 2 b_rank s p)) s p false) as R.
  destruct (run_fuel _ _ _ _ _); auto. destruct fin; auto. unfold b_finish. destruct (b_rd s0); auto.
  destruct (negb _); auto. destruct (transit _ _ _ _) as [ph|e|]; cbn; auto.
Qed.
Definition seenX (x x' : rx) : Prop := d_seen (b_dec (x_st x')) = d_seen (b_dec (x_st x)).
Lemma read_bidi_seen pre E x src fin : match read_bidi pre E x src fin with COk x' _ _ _ => seenX x x' | _ => True end.
Proof.
  unfold read_bidi. destruct (x_shut x); [reflexivity|]. destruct (b_blk (x_st x)); [reflexivity|]. pose proof (b_read_seen pre E (x_st x) src fin) as B. destruct (b_read _ _ _ _ _); auto.
Qed.
Lemma recv_seen pre E x src fin : match recv pre E x src fin with XOk x' _ | XGone x' _ => seenX x x' | _ => True end.
Proof.
  unfold recv. destruct (_ && _); [reflexivity|]. cbv zeta. pose proof (read_bidi_seen pre E (mk_rx (x_id x) (x_st x) (x_inq x) (x_shut x) (x_eof x || fin) (x_closed x) (x_ret x) (x_def x)) src fin) as B. destruct (read_bidi _ _ _ _ _); auto.
Qed.
Lemma process_seen pre E f : forall x, match process_blocked pre f E x with XOk x' _ | XGone x' _ => seenX x x' | _ => True end.
Proof.
  induction f as [|f IH]; intros x; cbn [process_blocked]; [exact I|]. destruct (x_inq x) as [|[buf room] q]; [reflexivity|].
  pose proof (read_bidi_seen pre E x buf ((match q with [] => true | _ => false end) && x_eof x)) as B. destruct (read_bidi _ _ _ _ _) as [x' n m ev| |]; auto.
  destruct (x_inq x') as [|[buf' room'] q']; auto. cbv zeta. set (x2 := x_add x' _ _ _). destruct (b_blk (x_st x2)); [exact B|]. specialize (IH x2). destruct (process_blocked _ _ _ _); cbn [x_evs]; auto; unfold seenX in *; rewrite IH; exact B.
Qed.
Lemma resume_seen pre E x : match resume pre E x with XOk x' _ | XGone x' _ => seenX x x' | _ => True end.
Proof. unfold resume. pose proof (process_seen pre E (S (length (x_inq x))) x) as P. destruct (process_blocked _ _ _ _); auto. destruct (_ && _); exact P. Qed.

(* ---- the connection ---- *)
Definition kseen (c : conn) : list Z := d_seen (k_dec c).
Definition asrc (a : kact) : list Z := match a with ADec src => src | _ => [] end.
Lemma ebufs_seen es : forall c c', add_ebufs c es = Ok c' -> k_dec c' = k_dec c.
Proof.
  induction es as [|e es IH]; intros c c'; cbn [add_ebufs]; [intros [= <-]; reflexivity|].
  destruct (k_tenc c); [|discriminate]. destruct (find_stream c z); [|discriminate]. intros H. apply obind_ok in H as (t & _ & H). apply IH in H. exact H.
Qed.
Lemma mid_seen c id s x : k_dec (mid c id s x) = b_dec (x_st x). Proof. unfold mid. destruct (_ && _); reflexivity. Qed.
Lemma add_seen K c id s : k_dec (add_stream K c id s) = k_dec c. Proof. unfold add_stream. destruct (is_server_bidi K id); reflexivity. Qed.
Lemma rem_seen K c id : k_dec (rem_stream K c id) = k_dec c. Proof. unfold rem_stream. destruct (is_server_bidi K id); reflexivity. Qed.
Lemma kst_seen K c a c' : kst K c a c' -> kseen c' = kseen c ++ asrc a.
Proof.
  intros S. unfold kseen. destruct S; cbn [asrc]; rewrite ?app_nil_r; try reflexivity.
  - rewrite add_seen. reflexivity.
  - rewrite mid_seen. pose proof (recv_seen false (benv_of K c s) (rx_now c s) src fin) as R. rewrite H2 in R. exact R.
  - rewrite mid_seen. pose proof (resume_seen false (benv_of K (kk_blk c q) s) (unblocked c s)) as R. rewrite H4 in R. exact R.
  - rewrite mid_seen. pose proof (resume_seen false (benv_of K (kk_blk c q) s) (unblocked c s)) as R. rewrite H4 in R. exact R.
  - cbv zeta. change (k_dec (kk_sch ?a ?b)) with (k_dec a). rewrite add_seen. reflexivity.
  - rewrite rem_seen. reflexivity.
  - assert (k_dec c1 = k_dec c) as X by (unfold identify in H2; repeat match type of H2 with context [if ?b then _ else _] => destruct b end; try discriminate; injection H2 as <- _; reflexivity). change (k_dec (put c1 id (ss_u s u))) with (k_dec c1). rewrite X. reflexivity.
  - apply change_seen. exact H.
  - change (k_dec (kk_sch c1 sch')) with (k_dec c1). rewrite (ebufs_seen _ _ _ H2). reflexivity.
  - unfold dec_cancel_stream in H2. destruct (_ || _); [discriminate|]. destruct (dbuf_overflow _); [discriminate|]. injection H2 as <-. reflexivity.
Qed.
Lemma ksts_seen K c l c' : ksts K c l c' -> kseen c' = kseen c ++ concat (map asrc l).
Proof. induction 1 as [c|c a c1 l c' S _ IH]; [rewrite app_nil_r; reflexivity|]. rewrite IH, (kst_seen _ _ _ _ S). cbn [map concat]. rewrite app_assoc. reflexivity. Qed.
Definition no_read (o : cop) : Prop := match o with ORead _ _ _ => False | _ => True end.
Lemma step_seen K c o c' rv evs : wf K c -> op_ok o -> kstep K c o = KOk c' rv evs -> no_read o -> kseen c' = kseen c.
Proof.
  intros W O S N. destruct (step_decomp K c o c' rv evs W O S) as (acts & D & _ & FA & _). rewrite (ksts_seen _ _ _ _ D). replace (concat (map asrc acts)) with (@nil Z); [apply app_nil_r|].
  clear D S. induction FA as [|a l A _ IH]; [reflexivity|]. cbn [map concat]. rewrite <- IH, app_nil_r. destruct a; cbn [asrc]; auto. cbn in A. destruct o; try contradiction; auto.
Qed.
Lemma prios_seen l : forall c id s c', apply_prios c id s l = Ok c' -> k_dec c' = k_dec c.
Proof. intros c id s c' H. apply prios_sch in H. rewrite H. reflexivity. Qed.
Lemma after_seen c id s x evs c' : after_read c id s x evs = Ok c' -> k_dec c' = b_dec (x_st x).
Proof. intros H. apply after_mid in H. rewrite H. change (k_dec (kk_sch ?a ?b)) with (k_dec a). apply mid_seen. Qed.
Lemma drop_seen K c id s evs c' rv evs' : drop_stream K c id s evs = KOk c' rv evs' -> k_dec c' = k_dec c.
Proof. unfold drop_stream. destruct (is_server_bidi K id); [destruct (_ <=? _); [discriminate|]|]; intros [= <- _ _]; reflexivity. Qed.
Lemma unblock_seen K f : forall c c' rv evs, unblock_loop K f c = KOk c' rv evs -> kseen c' = kseen c.
Proof.
  induction f as [|f IH]; intros c c' rv evs; cbn [unblock_loop]; [discriminate|]. destruct (pq_empty _); [intros [= <- _ _]; reflexivity|]. destruct (pq_top _) as [id| |]; try discriminate.
  destruct (find_stream c id) as [s|]; [|discriminate]. destruct (_ <? _); [intros [= <- _ _]; reflexivity|]. destruct (pq_pop _ _) as [q| |]; try discriminate. cbv zeta.
  set (x := x_set_st _ _). pose proof (resume_seen false (benv_of K (kk_blk c q) (ss_x s x)) x) as R. destruct (resume _ _ _) as [x' ev|x' ev|e ev|]; try discriminate.
  - destruct (after_read _ _ _ _ _) as [c1| |] eqn:A; try discriminate. apply after_seen in A. destruct (unblock_loop K f c1) as [c2 rv2 e2| |] eqn:U; try discriminate. cbn [k_evs]. intros [= <- _ _].
    rewrite (IH _ _ _ _ U). unfold kseen. rewrite A. exact R.
  - destruct (after_read _ _ _ _ _) as [c1| |] eqn:A; try discriminate. apply after_seen in A. destruct (drop_stream _ _ _ _ _) as [c3 rv3 e3| |] eqn:D; try discriminate. apply drop_seen in D.
    destruct (unblock_loop K f c3) as [c2 rv2 e2| |] eqn:U; try discriminate. cbn [k_evs]. intros [= <- _ _]. rewrite (IH _ _ _ _ U). unfold kseen. rewrite D, A. exact R.
Qed.
Lemma request_seen K c id s src fin c' rv evs : read_request_stream K c id s src fin = KOk c' rv evs -> kseen c' = kseen c.
Proof.
  unfold read_request_stream. cbv zeta. pose proof (recv_seen false (benv_of K c s) (rx_now c s) src fin) as R. destruct (recv _ _ _ _ _) as [x' ev| | |]; try discriminate.
  destruct (after_read _ _ _ _ _) as [c1| |] eqn:A; try discriminate. intros [= <- _ _]. apply after_seen in A. unfold kseen. rewrite A. exact R.
Qed.
Lemma updates_seen K evs : forall c c', apply_updates K c evs = Ok c' -> k_dec c' = k_dec c.
Proof.
  induction evs as [|e evs IH]; intros c c' H; cbn [apply_updates] in H; [injection H as <-; reflexivity|].
  assert (G : forall c1, k_dec c1 = k_dec c -> apply_updates K c1 evs = Ok c' -> k_dec c' = k_dec c) by (intros c1 E U; rewrite (IH _ _ U); exact E).
  destruct e; try (eapply G; [|exact H]; reflexivity). apply obind_ok in H as (c1 & O & H). apply (G c1); [|exact H]. clear - O. unfold on_priority_update in O.
  destruct (find_stream c id) as [s|].
  - destruct (st_sp s); [injection O as <-; reflexivity|]. unfold update_priority in O. destruct (negb _); [discriminate|]. unfold sched_do in O. destruct (sc_priority _ _ _ _); try discriminate. injection O as <-. reflexivity.
  - destruct (_ && _); [injection O as <-; reflexivity|]. apply obind_ok in O as ([rv g] & _ & O). destruct (negb _); [destruct (_ =? _); [injection O as <-; reflexivity|discriminate]|].
    cbv zeta in O. apply obind_ok in O as (c2 & CR & [= <-]). apply create_ok in CR as [_ ->]. change (k_dec (kk_sch ?a ?b)) with (k_dec a). rewrite add_seen. reflexivity.
Qed.
Lemma typed_seen K c id src fin u c' n evs : typed_read K c id src fin u c' n evs -> kseen c' = kseen c ++ match u with UEnc => src | _ => [] end.
Proof.
  intros T. destruct T as [c' n evs _ R|c' n evs _ R|n _ _|]; try (rewrite app_nil_r; reflexivity).
  - rewrite app_nil_r. unfold read_control_stream in R. destruct (read_control _ _ _ _) as [s' ev| | |]; try discriminate. destruct (apply_updates _ _ _) as [c1| |] eqn:A; try discriminate. injection R as <- _ _.
    apply updates_seen in A. unfold kseen. rewrite A. reflexivity.
  - unfold read_qpack_encoder in R. destruct (read_encoder _ _) as [d [m| |]] eqn:E; try discriminate. apply enc_seen in E. destruct (unblock_loop _ _ _) as [c1 r1 e1| |] eqn:U; try discriminate.
    injection R as <- _ _. rewrite (unblock_seen _ _ _ _ _ _ U). exact E.
Qed.

Section E.
Variable K : kenv.
(* what the decoder has seen is what lies behind the type of the peer's encoder stream *)
Record SE (c : conn) (hd : Z -> list Z) : Prop := mk_SE {
  se_none : k_eopen c = false -> kseen c = [];
  se_enc : forall id s, peer_uni K id = true -> find_stream c id = Some s -> st_u s = UEnc -> get_varint (hd id) = Some (2, kseen c) }.
Lemma SE_same c c' hd : sameU K c c' -> kseen c' = kseen c -> SE c hd -> SE c' hd.
Proof.
  intros [F _ G] E [A B]. split; rewrite ?E; [intros O; apply A; specialize (G UEnc); cbn in G; congruence|]. intros id s P Fs U. destruct (F id s P Fs) as (t & Ft & Et). apply (B id t); auto. congruence.
Qed.
Lemma SE_ext c hd hd' : (forall id, peer_uni K id = true -> find_stream c id <> None -> hd' id = hd id) -> SE c hd -> SE c hd'.
Proof. intros E [A B]. split; auto. intros id s P F U. rewrite E; [eauto|auto|congruence]. Qed.
Lemma SE_typed c hd id s rest fin c' n evs : wf K c -> U K c hd -> peer_uni K id = true -> bytes rest -> find_stream c id = Some s -> read_uni_typed K c id s rest fin = KOk c' n evs ->
  (if match st_u s with UEnc => true | _ => false end then get_varint (hd id) = Some (2, kseen c ++ rest) else SE c hd) -> SE c' hd.
Proof.
  intros W UU P B F R Q. pose proof (typed_seen K c id rest fin (st_u s) c' n evs (read_typed_shape _ _ _ _ _ _ _ _ _ R)) as T.
  destruct (critical_dec (st_u s)) as [C|NC].
  - destruct (ds_typed K id rest fin c id s rest fin c' n evs W B R) as (acts & D & _ & FA & _). assert (sameU K c c') as SU by (eapply (crit_read K id rest fin); eauto).
    destruct (st_u s) eqn:E; try (rewrite app_nil_r in T; eapply SE_same; eauto; fail). split.
    + intros O. exfalso. pose proof (su_flag _ _ _ SU UEnc) as G. cbn in G. assert (flag c UEnc = true) as G2 by (apply (u_flag _ _ _ UU); [right; left; reflexivity|eauto]). cbn in G2. congruence.
    + intros j t Pj Fj Ej. destruct (su_fwd _ _ _ SU j t Pj Fj) as (t0 & F0 & E0). assert (id = j) as <- by (apply (u_one _ _ _ UU id s j t0); auto; [rewrite E; right; left; reflexivity|congruence]). rewrite T. exact Q.
  - pose proof (read_typed_shape _ _ _ _ _ _ _ _ _ R) as TR. destruct (st_u s) eqn:E; try (exfalso; apply NC; unfold critical; auto; fail); inversion TR; subst. exact Q.
Qed.
Lemma kseen_put c id s : kseen (put c id s) = kseen c. Proof. reflexivity. Qed.
Lemma identify_seen c v c1 u : identify c v = Ok (c1, u) -> kseen c1 = kseen c.
Proof. unfold identify. intros H. repeat match type of H with context [if ?b then _ else _] => destruct b end; try discriminate; injection H as <- _; reflexivity. Qed.
(* the type becomes known *)
Lemma SE_type c hd id s src v rest c1 u rv : U K c hd -> SE c hd -> peer_uni K id = true -> find_stream c id = Some s -> st_u s = UNone rv -> bytes src ->
  get_varint (hd id ++ src) = Some (v, rest) -> identify c v = Ok (c1, u) ->
  if match u with UEnc => true | _ => false end then get_varint (ext1 hd id src id) = Some (2, kseen (put c1 id (ss_u s u)) ++ rest) else SE (put c1 id (ss_u s u)) (ext1 hd id src).
Proof.
  intros UU [SA SB] P F NU B G I. pose proof (identify_seen _ _ _ _ I) as IS. destruct (identify_kind _ _ _ _ I) as (V1 & V2 & V3 & V4 & V5).
  destruct (match u with UEnc => true | _ => false end) eqn:EU.
  - assert (u = UEnc) as EE by (destruct u; congruence). rewrite kseen_put, IS. rewrite EE in V3. cbn in V3. rewrite (SA V3). unfold ext1. rewrite Z.eqb_refl, G. cbn [app]. f_equal. f_equal. rewrite EE in V2. unfold kind_u in V2.
    destruct (v =? 0); [discriminate|]. destruct (Z.eqb_spec v 2); [auto|]. destruct (v =? 3); discriminate.
  - split; rewrite kseen_put, IS.
    + intros O. apply SA. pose proof (V4 UEnc (or_intror (or_introl eq_refl))) as X. change (k_eopen (put c1 id (ss_u s u))) with (flag c1 UEnc) in O. rewrite X in O. apply orb_false_iff in O as [O _]. exact O.
    + intros j t Pj. rewrite find_put, !V5, F. unfold ext1. destruct (Z.eqb_spec j id) as [->|N]; [intros [= <-] E; cbn in E; rewrite E in EU; discriminate|]. eauto.
Qed.
Lemma SE_uni c hd id s src fin c' rv evs : wf K c -> U K c hd -> SE c hd -> peer_uni K id = true -> bytes src -> find_stream c id = Some s -> (zlen src =? 0) && negb fin = false ->
  uni_read K c id s src fin c' rv evs -> SE c' (ext1 hd id src).
Proof.
  intros W UU SS P B F NE R. destruct R as [rvi c' rv evs E -> -> L D|rvi rvi' E NF V|rvi v u c1 E V I|rvi v rest u c1 c' n evs E V NR I R|c' n evs N R].
  - destruct (delete_gone K c id s c' rv evs F) as [S G]; auto. { rewrite E. intros [A|[A|A]]; discriminate. }
    eapply SE_ext; [|eapply SE_same; [exact S| |exact SS]]. { intros j Pj Fj. unfold ext1. destruct (Z.eqb_spec j id); auto. subst. congruence. }
    apply drop_seen in D. unfold kseen. rewrite D. reflexivity.
  - destruct SS as [SA SB]. split; [exact SA|]. intros j t Pj. rewrite find_put, F. unfold ext1. destruct (Z.eqb_spec j id) as [->|N]; [intros [= <-] X; discriminate|]. apply SB; auto.
  - destruct (U_none _ _ _ _ _ _ UU P F E) as (PR & -> & G).
    assert (src <> []) as NN. { intros ->. cbn in V. unfold rd_varint, read_varint in V. cbn in V. destruct fin; discriminate. }
    destruct (rd_varint_spec (hd id) src fin PR B NN) as [RS RP]. rewrite V in RS. destruct (get_varint (hd id ++ src)) as [[v' r]|] eqn:GV; [|destruct fin; discriminate].
    injection RS as <- <-. pose proof (SE_type c hd id s src v [] c1 u _ UU SS P F E B GV I) as ST. destruct (U_type _ _ _ _ _ _ _ _ _ _ _ UU P F E B GV I) as [U1 F1].
    destruct u; try exact ST. cbv iota in ST. rewrite app_nil_r in ST. split.
    + intros O. exfalso. assert (flag (put c1 id (ss_u s UEnc)) UEnc = true) as G2 by (apply (u_flag _ _ _ U1); [right; left; reflexivity|eauto]). unfold flag in G2. rewrite O in G2. discriminate.
    + intros j t Pj Fj Ej. assert (id = j) as <- by (apply (u_one _ _ _ U1 id (ss_u s UEnc) j t); auto; right; left; reflexivity). exact ST.
  - destruct (U_none _ _ _ _ _ _ UU P F E) as (PR & -> & G).
    assert (src <> []) as NN. { intros ->. cbn in V. unfold rd_varint, read_varint in V. cbn in V. destruct fin; discriminate. }
    destruct (rd_varint_spec (hd id) src fin PR B NN) as [RS RP]. rewrite V in RS. destruct (get_varint (hd id ++ src)) as [[v' r]|] eqn:GV; [|destruct fin; discriminate].
    injection RS as <- <-. destruct (U_type _ _ _ _ _ _ _ _ _ _ _ UU P F E B GV I) as [U1 F1].
    eapply (SE_typed (put c1 id (ss_u s u)) _ id (ss_u s u) rest fin c' n evs); [eapply wf_type; eauto|exact U1|exact P|eapply bytes_rest; eauto|exact F1|exact R|].
    exact (SE_type c hd id s src v rest c1 u _ UU SS P F E B GV I).
  - pose proof (U_more K c hd id src s UU B F N) as U1. eapply (SE_typed c _ id s src fin c' n evs); [exact W|exact U1|exact P|exact B|exact F|exact R|].
    destruct (match st_u s with UEnc => true | _ => false end) eqn:EU.
    + assert (st_u s = UEnc) as EE by (destruct (st_u s); congruence). unfold ext1. rewrite Z.eqb_refl. pose proof (se_enc _ _ SS id s P F EE) as G. destruct (u_typ _ _ _ UU id s P F) as [Bh _].
      pose proof (get_varint_app (hd id) src Bh) as GA. rewrite G in GA. destruct GA as (-> & _). reflexivity.
    + destruct SS as [SA SB]. split; [exact SA|]. intros j t Pj Fj Ej. unfold ext1. destruct (Z.eqb_spec j id) as [->|]; [|eauto]. rewrite F in Fj. injection Fj as <-. rewrite Ej in EU. discriminate.
Qed.
Lemma opened_seen c id c0 s pre : opened K c id c0 s pre -> kseen c0 = kseen c.
Proof. intros O. unfold kseen. destruct O as [s F _|r g s F SB _ _|F _]; [reflexivity| |]; rewrite add_seen; reflexivity. Qed.
Lemma SE_opened c hd id c0 s pre : peer_uni K id = true -> opened K c id c0 s pre -> SE c hd -> SE c0 hd.
Proof.
  intros P O SS. pose proof (opened_seen _ _ _ _ _ O) as E. destruct O as [s F _|r g s F SB _ _|F _]; auto.
  - exfalso. unfold is_server_bidi in SB. apply andb_true_iff in SB as [_ B]. pose proof (bidi_uni id B); pose proof (peer_is_uni K id P); congruence.
  - destruct SS as [SA SB]. split; rewrite E; [intros O; apply SA; revert O; unfold add_stream; destruct (is_server_bidi K id); auto|].
    intros j t Pj. rewrite find_add by auto. destruct (Z.eqb_spec j id) as [->|N]; [intros [= <-] X; discriminate|eauto].
Qed.
Lemma SE_step c hd o c' rv evs : wf K c -> op_ok o -> kstep K c o = KOk c' rv evs -> (forall id, find_stream c id = None -> hd id = []) -> U K c hd -> SE c hd ->
  SE c' (fun i => hd i ++ heard1 i (mk_call o rv evs c')).
Proof.
  intros W O S E UU SS. assert (OT : other_op K o -> kseen c' = kseen c -> SE c' (fun i => hd i ++ heard1 i (mk_call o rv evs c'))).
  { intros OT KS. eapply SE_ext; [|eapply SE_same; [eapply step_other; eauto|exact KS|exact SS]]. intros j P _. unfold heard1. cbn. destruct o; try apply app_nil_r.
    cbn in OT. destruct (Z.eqb_spec id j); [congruence|apply app_nil_r]. }
  destruct o; try (apply OT; [exact I|eapply step_seen; eauto; exact I]). cbn [kstep op_ok] in S, O. destruct (peer_uni K id) eqn:P.
  2:{ apply OT; [exact P|]. apply read_cases in S as [RG S]. destruct S as [F _ -> ->|c0 s pre OP -> ->|c0 s pre c' rv evs OP CB _ R|c0 s c' rv evs OP PU NE R]; [reflexivity|eapply opened_seen; eauto| |congruence].
      rewrite (request_seen _ _ _ _ _ _ _ _ _ R). eapply opened_seen; eauto. }
  clear OT. assert (EX : forall c, SE c (ext1 hd id src) -> SE c (fun i => hd i ++ heard1 i (mk_call (ORead id src fin) rv evs c'))).
  { intros d UD. eapply SE_ext; [|exact UD]. intros j _ _. unfold ext1, heard1. cbn. rewrite (Z.eqb_sym id j). destruct (j =? id); auto. apply app_nil_r. }
  apply EX. clear EX. apply read_cases in S as [RG S]. destruct S as [F _ -> ->|c0 s pre OP -> ->|c0 s pre c' rv evs OP CB _ R|c0 s c' rv evs OP _ NE R].
  - eapply SE_ext; [|exact SS]. intros j _ _. unfold ext1. destruct (j =? id); auto. apply app_nil_r.
  - eapply SE_ext; [|eapply SE_opened; eauto]. intros j _ _. unfold ext1. destruct (j =? id); auto. apply app_nil_r.
  - exfalso. pose proof (bidi_uni id CB); pose proof (peer_is_uni K id P); congruence.
  - destruct (U_opened _ _ _ _ _ _ _ P OP (E id) UU) as (U0 & F0 & _). pose proof (SE_opened _ _ _ _ _ _ P OP SS) as S0. eapply (SE_uni c0); eauto. eapply opened_wfU; eauto.
Qed.
Theorem hist_SE h c : history K h c -> SE c (fun id => heard id h).
Proof.
  revert h c. apply hist_inv.
  - split; [reflexivity|]. intros id s _ F. discriminate F.
  - intros h c o c' rv evs H W O SS S. pose proof (SE_step c _ o c' rv evs W O S (fun id => heard_closed K h c id H) (hist_U K h c H) SS) as R.
    eapply SE_ext; [|exact R]. intros id P N. cbv beta. rewrite heard_snoc. unfold is_open. cbn [c_post]. destruct (find_stream c' id); [reflexivity|congruence].
Qed.
End E.
