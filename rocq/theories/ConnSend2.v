(* The sending side of the streams: offers, opening of the endpoint's own streams, histories of calls *)
From Verif Require Import Base BaseLemmas Chunk ConvModel ConvSpec RdVarint QpackTabModel QpackDecModel HttpModel QpackIntModel QpackIntProofs QpackDecProofs QpackHistProofs BidiModel BidiHist BidiSpec BidiCut ControlModel GapModel PqModel PqProofs PqWeak TxModel TxSpec TxTrace SchedModel SchedProofs ConnModel ConnCtl ConnStep ConnRx ConnWf ConnDecomp ConnHist ConnRead ConnPri ConnSched ConnOffer RecvLog ConnRecv ConnRecvHist ConnShut SendSpec ConnTx TxGhost ConnKind ConnSend.
Open Scope Z_scope.

(* what the decoder has to send *)
Definition dbuf_ok (d : dec) : Prop := bytes (d_dbuf d) /\ 0 <= d_written d.
Lemma put_bytes N first n : 3 <= N <= 8 -> is_byte first -> 0 <= n < 2 ^ 62 -> bytes (q_put_varint first n N).
Proof. intros A B C. destruct (q_put_varint_full N first n A B C) as (X & _). exact X. Qed.
Lemma evolves_dbuf d d' : dec_evolves d d' -> dec_ok d -> dbuf_ok d -> dbuf_ok d'.
Proof.
  induction 1 as [d|d d1 src n d' B H E IH|d d1 s d' B H E IH|d d1 id d' H E IH|d d1 n l d' H E IH|d n d' E IH]; intros O D; auto.
  - pose proof (read_encoder_ok d src (proj1 O) B) as R. rewrite H in R. destruct R as (_ & R2 & R3 & _). apply IH; [|unfold dbuf_ok; rewrite R2, R3; exact D].
    apply (evolves_ok d d1); [eapply de_encoder_stream; [exact B|exact H|constructor]|exact O].
  - apply IH; [apply (evolves_ok d d1); [eapply de_other_section; [exact B|exact H|constructor]|exact O]|].
    destruct (fin_cases _ _ _ H B) as (_ & _ & _ & _ & _ & F). destruct D as [D1 D2]. unfold dbuf_ok. destruct (s_ricnt s =? 0).
    + destruct F as [-> ->]. auto.
    + destruct F as (-> & -> & _). split; [apply bytes_app; split; auto; apply put_bytes; auto; unfold is_byte; lia|lia].
  - apply IH; [apply (evolves_ok d d1); [eapply de_cancel; [exact H|constructor]|exact O]|]. unfold dec_cancel_stream in H. destruct ((id <? 0) || (id >? max_varint)) eqn:R; [discriminate|]. destruct (dbuf_overflow d); [discriminate|]. injection H as <-.
    destruct D as [D1 D2]. split; [|exact D2]. cbn [d_dbuf d_set_dbuf]. apply bytes_app; split; auto. apply put_bytes; [lia|unfold is_byte; lia|]. unfold max_varint in R. lia.
  - apply IH; [apply (evolves_ok d d1); [eapply de_decoder_stream; [exact H|constructor]|exact O]|]. unfold write_decoder in H. destruct (_ <? _); [discriminate|]. destruct D as [D1 D2].
    destruct (Z.ltb_spec (d_written d) (next_absidx (d_ctx d))) as [L|L]; injection H as <- _; (split; [constructor|cbn [d_written d_set_dbuf]; lia]).
Qed.
Lemma decoder_bytes d d' l : dbuf_ok d -> get_decoder_streamlen d <> 0 -> get_decoder_streamlen d < 2 ^ 62 -> next_absidx (d_ctx d) < 2 ^ 62 -> write_decoder d (get_decoder_streamlen d) = Ok (d', l) ->
  l <> [] /\ bytes l /\ zlen l < 2 ^ 62.
Proof.
  intros [D1 D2] NZ L A H. unfold write_decoder in H. rewrite Z.ltb_irrefl in H.
  assert (bytes l /\ zlen l = get_decoder_streamlen d) as [B E].
  { unfold get_decoder_streamlen. destruct (Z.ltb_spec (d_written d) (next_absidx (d_ctx d))) as [W|W]; injection H as _ <-; [|split; [auto|lia]].
    destruct (q_put_varint_full 6 0 (next_absidx (d_ctx d) - d_written d)) as (X & Y & _); [lia|unfold is_byte; lia|lia|]. split; [apply bytes_app; auto|]. rewrite zlen_app, Y. reflexivity. }
  split; [intros ->; apply NZ; rewrite <- E; reflexivity|]. split; auto. lia.
Qed.

Section Send.
Context (K : kenv).
Context (EN : forall i, enc_ok (ke_tx K i)).
Definition KB (c : conn) : Prop := (forall q s, k_tenc c = Some q -> find_stream c q = Some s -> kind K q s = Some 2) /\ (forall q s, k_tdec c = Some q -> find_stream c q = Some s -> kind K q s = Some 3).
(* the streams and their types stay *)
Record keepk (c c' : conn) : Prop := {
  kb_tx : txs_of c' = txs_of c;
  kb_str : forall id s', find_stream c' id = Some s' -> exists s, find_stream c id = Some s /\ kind K id s' = kind K id s }.
Lemma keepk_refl c : keepk c c. Proof. constructor; eauto. Qed.
Lemma keepk_trans a b c : keepk a b -> keepk b c -> keepk a c.
Proof. intros [A1 A2] [B1 B2]. constructor; [congruence|]. intros id s F. destruct (B2 _ _ F) as (t & Ft & E). destruct (A2 _ _ Ft) as (u & Fu & E'). exists u. split; auto. congruence. Qed.
Lemma keepk_same c c' : txs_of c' = txs_of c -> (forall id, find_stream c' id = find_stream c id) -> keepk c c'.
Proof. intros T S. constructor; auto. intros id s F. rewrite S in F. eauto. Qed.
Lemma keepk_put c id s t : find_stream c id = Some s -> keepk c (put c id (ss_t s t)).
Proof. intros F. constructor; [reflexivity|]. intros j s' G. rewrite find_put, F in G. destruct (Z.eqb_spec j id) as [->|N]; [injection G as <-; exists s; split; auto|eauto]. Qed.
Lemma keepk_KB c c' : keepk c c' -> KB c -> KB c'.
Proof.
  intros [T S] [B1 B2]. injection T as T1 T2 T3. split; intros q s Q F; destruct (S _ _ F) as (s0 & F0 & ->); [eapply B1|eapply B2]; eauto; congruence.
Qed.
(* the encodings [es] of stream [id]: the stream has produced them, and the encoder stream has them *)
Definition gset (gf : Z -> gh) (id : Z) (g : gh) (j : Z) : gh := if j =? id then g else gf j.
Definition is_tenc (c : conn) (j : Z) : bool := match k_tenc c with Some q => j =? q | None => false end.
Definition ggrow (c : conn) (id : Z) (es : list (list Z)) (gf : Z -> gh) (j : Z) : gh := gadd (gf j) (if is_tenc c j then es else [], if j =? id then es else []).
Lemma ggrow_nil c id gf j : ggrow c id [] gf j = gf j.
Proof. unfold ggrow. destruct (is_tenc c j), (j =? id); apply gadd_0. Qed.
Lemma TI_gext c lf gf gf' : (forall j, gf j = gf' j) -> TI K c lf gf -> TI K c lf gf'.
Proof. intros E T id s F. rewrite <- E. apply T. exact F. Qed.
Lemma W_put c lf gf id s t g : TI K c lf gf -> find_stream c id = Some s -> txgx (ke_tx K id) (kind K id s) t (lf id) g -> TI K (put c id (ss_t s t)) lf (gset gf id g).
Proof.
  intros T F G. eapply TI_one; [exact T|exact F|exact (find_put_if c id s _ F)| |].
  - unfold gset. rewrite Z.eqb_refl. exact G.
  - intros j N. unfold gset. apply Z.eqb_neq in N. rewrite N. auto.
Qed.
Lemma W_put0 c lf gf id s t : TI K c lf gf -> find_stream c id = Some s -> txgx (ke_tx K id) (kind K id s) t (lf id) (gf id) -> TI K (put c id (ss_t s t)) lf gf.
Proof. intros T F G. eapply TI_gext; [|eapply W_put; eauto]. intros j. unfold gset. destruct (Z.eqb_spec j id) as [->|]; reflexivity. Qed.
Lemma gadd_assoc a b c : gadd (gadd a b) c = gadd a (gadd b c). Proof. unfold gadd. cbn [fst snd]. rewrite !app_assoc. reflexivity. Qed.
Lemma W_ebufs es : forall c lf gf c', TI K c lf gf -> KB c -> Forall instr_ok es -> add_ebufs c es = Ok c' ->
  TI K c' lf (fun j => gadd (gf j) (if is_tenc c j then es else [], [])) /\ keepk c c' /\ k_dec c' = k_dec c /\ (k_tenc c = None -> es = []).
Proof.
  induction es as [|e es IH]; intros c lf gf c' T B FO H; cbn [add_ebufs] in H.
  { injection H as <-. split; [|auto using keepk_refl]. eapply TI_gext; [|exact T]. intros j. destruct (is_tenc c j); symmetry; apply gadd_0. }
  inversion FO as [|? ? F1 F2]; subst.
  destruct (k_tenc c) as [q|] eqn:Q; [|discriminate]. destruct (find_stream c q) as [s|] eqn:F; [|discriminate]. apply obind_ok in H as (t & W & H).
  pose proof (proj1 B _ _ Q F) as KD. pose proof (T _ _ F) as G. rewrite KD in G. pose proof (tg_ebuf _ _ _ _ _ (proj1 (EN q)) G F1) as TE. rewrite W in TE. destruct TE as [TE _]. rewrite <- KD in TE.
  destruct (IH _ lf _ _ (W_put _ _ _ _ _ _ _ T F TE) (keepk_KB _ _ (keepk_put _ _ _ t F) B) F2 H) as (T' & K' & D' & _). split.
  - eapply TI_gext; [|exact T']. intros j. unfold gset, is_tenc. cbn [k_tenc put kk_str]. rewrite Q. destruct (Z.eqb_spec j q) as [->|]; [rewrite gadd_assoc; reflexivity|reflexivity].
  - split; [eapply keepk_trans; [exact (keepk_put _ _ _ t F)|exact K']|]. split; [exact D'|discriminate].
Qed.
Definition offer_ok (c : conn) (n : nat) (r : option (Z * list (list Z) * bool)) : Prop :=
  match r with Some (i, vs, fin) => exists s, find_stream c i = Some s /\ writev (st_t s) n = Ok (vs, fin) /\ (vs <> [] \/ fin = true) | None => True end.
Lemma len_nil {A} (l : list A) : Nat.eqb (length l) 0 = false -> l <> []. Proof. destruct l; [discriminate|intros _; discriminate]. Qed.
Lemma W_cw c lf gf id n c1 r : TI K c lf gf -> KB c -> conn_writev K c id n = Ok (c1, r) -> exists es, TI K c1 lf (ggrow c id es gf) /\ keepk c c1 /\ k_dec c1 = k_dec c /\ offer_ok c1 n r /\ (k_tenc c = None -> es = []) /\ (sections (submitted (lf id)) = [] -> es = []).
Proof.
  intros T B H. unfold conn_writev in H. destruct (find_stream c id) as [s|] eqn:F; [|discriminate]. apply obind_ok in H as ([t es] & FL & H). apply obind_ok in H as (c2 & AE & H).
  pose proof (tg_fill _ _ _ _ _ (kind_known K id s) (EN id) (T _ _ F)) as TF. rewrite FL in TF. destruct TF as (TF & IO & NHE).
  destruct (W_ebufs es _ lf _ c2 (W_put _ _ _ _ _ _ _ T F TF) (keepk_KB _ _ (keepk_put _ _ _ t F) B) IO AE) as (T2' & K2 & D2 & NE).
  assert (keepk c c2) as K3 by (eapply keepk_trans; [exact (keepk_put _ _ _ t F)|exact K2]).
  assert (TI K c2 lf (ggrow c id es gf)) as T2.
  { eapply TI_gext; [|exact T2']. intros j. unfold gset, ggrow, is_tenc. cbn [k_tenc put kk_str]. destruct (Z.eqb_spec j id) as [->|]; [|reflexivity]. unfold gadd. cbn [fst snd]. rewrite !app_nil_r. reflexivity. }
  exists es. assert (sections (submitted (lf id)) = [] -> es = []) as NS by (intros S0; apply NHE; eapply tx_no_headers; [exact (T _ _ F)|exact S0]).
  assert (forall r, offer_ok c2 n r -> TI K c2 lf (ggrow c id es gf) /\ keepk c c2 /\ k_dec c2 = k_dec c /\ offer_ok c2 n r /\ (k_tenc c = None -> es = []) /\ (sections (submitted (lf id)) = [] -> es = [])) as FINE by (intros; repeat (split; [assumption|]); assumption).
  apply obind_ok in H as (early & EA & H). destruct early as [[[i vs] fin]|].
  - injection H as <- <-. apply FINE.
    destruct (if stream_uni id then None else k_tenc c2) as [q|]; [|discriminate]. destruct (find_stream c2 q) as [sq|] eqn:Fq; [|discriminate]. destruct (is_blocked sq); [discriminate|].
    apply obind_ok in EA as ([vs' fin'] & W & EA). destruct (Nat.eqb (length vs') 0) eqn:NL; [discriminate|]. injection EA as <- <- <-. exists sq. split; auto. split; auto. left. apply len_nil; auto.
  - destruct (find_stream c2 id) as [s2|] eqn:F2; [|discriminate]. apply obind_ok in H as ([vs fin] & W & H). destruct (Nat.eqb (length vs) 0 && negb fin) eqn:NL; injection H as <- <-; apply FINE; [exact I|].
    exists s2. split; auto. split; auto. apply andb_false_iff in NL as [NL|NL]; [left; apply len_nil; auto|right; apply negb_false_iff; auto].
Qed.
Lemma W_try c lf gf w n c1 r : TI K c lf gf -> KB c -> (forall id, w = Some id -> sections (submitted (lf id)) = []) -> try_uni K c w n = Ok (c1, r) -> TI K c1 lf gf /\ keepk c c1 /\ k_dec c1 = k_dec c /\ offer_ok c1 n r.
Proof.
  intros T B NS H. unfold try_uni in H. destruct w as [id|]; [|injection H as <- <-; repeat split; auto using keepk_refl]. 2:{ eauto. }
  destruct (find_stream c id) as [s|] eqn:F; [|discriminate]. destruct (is_blocked s); [injection H as <- <-; split; [auto|split; [apply keepk_refl|split; [auto|exact I]]]|].
  apply obind_ok in H as ([c2 o] & CW & H). destruct (W_cw _ _ _ _ _ _ _ T B CW) as (es & T2 & K2 & D2 & O2 & _ & E). rewrite (E (NS id eq_refl)) in T2. injection H as <- <-.
  split; [eapply TI_gext; [apply ggrow_nil|exact T2]|]. split; auto. split; auto.
  destruct o as [[[i vs] fin]|]; [|exact I]. destruct (Nat.eqb (length vs) 0); [exact I|exact O2].
Qed.
Lemma W_flush c lf gf c1 : TI K c lf gf -> KB c -> dbuf_ok (k_dec c) -> get_decoder_streamlen (k_dec c) < 2 ^ 62 -> next_absidx (d_ctx (k_dec c)) < 2 ^ 62 -> flush_decoder c = Ok c1 -> TI K c1 lf gf /\ keepk c c1.
Proof.
  intros T B DB L A H. unfold flush_decoder in H. destruct (k_tdec c) as [q|] eqn:Q; [|injection H as <-; auto using keepk_refl]. destruct (find_stream c q) as [s|] eqn:F; [|discriminate].
  destruct (is_blocked s); [injection H as <-; auto using keepk_refl|]. destruct (Z.eqb_spec (get_decoder_streamlen (k_dec c)) 0) as [_|NZ]; [injection H as <-; auto using keepk_refl|].
  apply obind_ok in H as ([d l] & W & H). apply obind_ok in H as (t & WR & H). injection H as <-. destruct (decoder_bytes _ _ _ DB NZ L A W) as (N1 & N2 & N3).
  pose proof (proj2 B _ _ Q F) as KD. pose proof (T _ _ F) as G. rewrite KD in G. pose proof (tg_raw _ _ _ _ _ (proj1 (EN q)) G N1 N2 N3) as TR. rewrite WR in TR. rewrite <- KD in TR.
  split; [|eapply keepk_trans; [exact (keepk_put _ _ _ t F)|apply keepk_same; reflexivity]].
  intros j s' Fj. change (find_stream (put c q (ss_t s t)) j = Some s') in Fj. exact (W_put0 _ _ _ _ _ _ T F TR j s' Fj).
Qed.
(* header sections are for request streams *)
Definition NHL (lf : Z -> list tev) : Prop := forall id, client_bidi id = false -> sections (submitted (lf id)) = [].
Lemma W_writev c lf gf n c1 r : n <> O -> TI K c lf gf -> KB c -> NHL lf -> (forall q, bound c q -> client_bidi q = false) -> dbuf_ok (k_dec c) -> get_decoder_streamlen (k_dec c) < 2 ^ 62 -> next_absidx (d_ctx (k_dec c)) < 2 ^ 62 -> writev_stream K c n = Ok (c1, r) ->
  exists id es, TI K c1 lf (ggrow c id es gf) /\ keepk c c1 /\ offer_ok c1 n r /\ (k_tenc c = None -> es = []) /\ (sections (submitted (lf id)) = [] -> es = []).
Proof.
  intros NZ T B NH BQ DB L A H. unfold writev_stream in H. destruct (Nat.eqb_spec n 0); [congruence|].
  assert (forall c' q, txs_of c' = txs_of c -> (k_tctl c' = Some q \/ k_tenc c' = Some q \/ k_tdec c' = Some q) -> sections (submitted (lf q)) = []) as NS.
  { intros c' q X Y. apply NH, BQ. injection X as X1 X2 X3. unfold bound. rewrite X1, X2, X3 in Y. exact Y. }
  assert (forall c' r', TI K c' lf gf -> keepk c c' -> offer_ok c' n r' -> exists id es, TI K c' lf (ggrow c id es gf) /\ keepk c c' /\ offer_ok c' n r' /\ (k_tenc c = None -> es = []) /\ (sections (submitted (lf id)) = [] -> es = [])) as STOP.
  { intros c' r' X1 X2 X3. exists 0, []. split; [eapply TI_gext; [intros j; symmetry; apply ggrow_nil|exact X1]|]. auto. }
  apply obind_ok in H as ([c2 o2] & T2 & H). destruct (W_try _ _ _ _ _ _ _ T B (fun q Q => NS c q eq_refl (or_introl Q)) T2) as (I2 & K2 & D2 & O2). destruct o2; [injection H as <- <-; auto|].
  apply obind_ok in H as (c3 & FL & H). rewrite <- D2 in DB, L, A. destruct (W_flush _ _ _ _ I2 (keepk_KB _ _ K2 B) DB L A FL) as (I3 & K3). pose proof (keepk_trans _ _ _ K2 K3) as K03.
  apply obind_ok in H as ([c4 o4] & T4 & H). destruct (W_try _ _ _ _ _ _ _ I3 (keepk_KB _ _ K03 B) (fun q Q => NS c3 q (kb_tx _ _ K03) (or_intror (or_intror Q))) T4) as (I4 & K4 & D4 & O4). pose proof (keepk_trans _ _ _ K03 K4) as K04. destruct o4; [injection H as <- <-; auto|].
  apply obind_ok in H as ([c5 o5] & T5 & H). destruct (W_try _ _ _ _ _ _ _ I4 (keepk_KB _ _ K04 B) (fun q Q => NS c4 q (kb_tx _ _ K04) (or_intror (or_introl Q))) T5) as (I5 & K5 & D5 & O5). pose proof (keepk_trans _ _ _ K04 K5) as K05. destruct o5; [injection H as <- <-; auto|].
  apply obind_ok in H as (nxt & _ & H). destruct nxt as [id|]; [|injection H as <- <-; apply STOP; auto; exact I].
  apply obind_ok in H as ([c6 o6] & CW & H). destruct (W_cw _ _ _ _ _ _ _ I5 (keepk_KB _ _ K05 B) CW) as (es & I6 & K6 & _ & O6 & E1 & E2).
  destruct (find_stream c6 id) as [s|]; [|discriminate]. apply obind_ok in H as (c7 & SD & H). injection H as <- <-.
  assert (exists sch, c7 = kk_sch c6 sch) as (sch & ->) by (unfold sched_do in SD; match type of SD with match ?x with _ => _ end = _ => destruct x end; try discriminate; injection SD as <-; eauto).
  assert (k_tenc c5 = k_tenc c) as QE by (pose proof (kb_tx _ _ K05) as X; injection X as _ X _; exact X).
  exists id, es. split; [eapply TI_gext; [|exact I6]; intros j; unfold ggrow, is_tenc; rewrite QE; reflexivity|]. split; [|split; [exact O6|split; [rewrite <- QE; exact E1|exact E2]]].
  eapply keepk_trans; [exact K05|]. eapply keepk_trans; [exact K6|]. apply keepk_same; reflexivity.
Qed.
Lemma S_writev c lf gf n c' rv evs : TI K c lf gf -> KB c -> NHL lf -> (forall q, bound c q -> client_bidi q = false) -> dbuf_ok (k_dec c) -> get_decoder_streamlen (k_dec c) < 2 ^ 62 -> next_absidx (d_ctx (k_dec c)) < 2 ^ 62 -> writev_call K c n = KOk c' rv evs ->
  exists id es, done K c lf (ggrow c id es gf) (OWritev n) rv evs c' /\ (k_tenc c = None -> es = []) /\ (sections (submitted (lf id)) = [] -> es = []).
Proof.
  intros T B NH BQ DB L A H. unfold writev_call in H. destruct (writev_stream K c n) as [[c1 r]| |] eqn:W; try discriminate.
  assert (exists id es, TI K c1 lf (ggrow c id es gf) /\ keepk c c1 /\ (n = O -> r = None) /\ offer_ok c1 n r /\ (k_tenc c = None -> es = []) /\ (sections (submitted (lf id)) = [] -> es = [])) as (id & es & T1 & K1 & NO & O1 & E1 & E2).
  { destruct n as [|n]; [|destruct (W_writev _ lf gf _ _ _ (Nat.neq_succ_0 n) T B NH BQ DB L A W) as (id & es & ? & ? & ? & ? & ?); exists id, es; repeat (split; [assumption||discriminate|]); assumption].
    cbn in W. injection W as <- <-. exists 0, []. split; [eapply TI_gext; [intros j; symmetry; apply ggrow_nil|exact T]|]. split; [apply keepk_refl|]. split; [auto|]. split; [exact I|auto]. }
  exists id, es. split; [|auto].
  assert (kinds K c (OWritev n) c1) as KC by (intros j s' F; destruct (kb_str _ _ K1 _ _ F) as (s0 & -> & E); exact E).
  destruct r as [[[i vs] fin]|]; injection H as <- <- <-; split; auto.
  - destruct O1 as (s & F & WV & NE). intros j s' Fj. unfold next, tlog1. cbn [ConnHist.c_op c_evs]. unfold offers_of. cbn [map concat]. rewrite app_nil_r. destruct (Z.eqb_spec i j) as [->|N]; [|rewrite app_nil_r; auto].
    replace s' with s by congruence. pose proof (tg_offer (ke_tx K j) (kind K j s) (st_t s) (lf j) (ggrow c id es gf j) n (kind_known K j s) (proj1 (EN j)) (T1 _ _ F)) as TO. rewrite WV in TO. apply TO; [|exact NE].
    intros ->. specialize (NO eq_refl). discriminate.
  - intros j s' Fj. unfold next, tlog1. cbn [ConnHist.c_op c_evs]. unfold offers_of. cbn [map concat]. rewrite app_nil_r. auto.
Qed.

(* the endpoint's own streams *)
Definition code_of (u : utype) : Z := match u with UCtl => 0 | UEnc => 2 | _ => 3 end.
Lemma S_open c id u frs c' : critical u -> local_uni K id = true -> (frs = [] \/ (u = UCtl /\ Forall frame_ok frs)) -> open_uni K c id u (code_of u) frs = Ok c' ->
  find_stream c id = None /\ txs_of c' = txs_of c /\ exists s, (forall j, find_stream c' j = if j =? id then Some s else find_stream c j) /\ kind K id s = Some (code_of u) /\
  txgx (ke_tx K id) (Some (code_of u)) (st_t s) (if match frs with [] => true | _ => false end then [] else [TSubmit frs false]) g0.
Proof.
  intros CU L FR H. apply open_uni_inv in H as (F & t & W & G & TX & _). split; auto. split; auto. eexists. split; [exact G|]. split.
  - unfold kind. rewrite L. destruct CU as [-> |[-> | ->]]; reflexivity.
  - pose proof (tg_start (ke_tx K id) (code_of u) t (proj1 (EN id))) as TS. assert (txgx (ke_tx K id) (Some (code_of u)) t [] g0) as T0.
    { apply TS; [destruct u; unfold is_byte; cbn [code_of]; lia|exact W]. }
    cbn [st_t ss_t]. destruct FR as [-> |[-> FO]].
    + replace (tx_submit t [] false) with t; [exact T0|]. unfold tx_submit. rewrite app_nil_r. destruct t; reflexivity.
    + pose proof (tg_step (ke_tx K id) (Some (code_of UCtl)) t [] g0 (OSubmit frs false) (proj1 (EN id)) T0 FO eq_refl) as T1. cbn [texec] in T1. destruct T1 as [_ T1]. cbn [tv1 gh1 app] in T1. rewrite gadd_0 in T1.
      destruct frs; [|exact T1]. replace (tx_submit t [] false) with t; [exact T0|]. unfold tx_submit. rewrite app_nil_r. destruct t; reflexivity.
Qed.
Lemma S_bind_control c lf gf id c' rv evs : frame_ok (FSettings (ke_set K)) -> LT c lf gf -> TI K c lf gf -> NI K c -> bind_control K c id = KOk c' rv evs -> done K c lf gf (OBindControl id) rv evs c' /\ NI K c'.
Proof.
  intros FS LTc T NK H. unfold bind_control in H. destruct (id_ok id && local_uni K id) eqn:IO; [|discriminate]. apply andb_true_iff in IO as [_ L]. cbn [negb] in H.
  destruct (k_tctl c) as [q|] eqn:Q.
  - injection H as <- <- <-. split; [|exact NK]. split; [|intros j s F; rewrite F; reflexivity]. eapply TI_ext; [|exact T]. intros j _. symmetry. unfold next, tlog1. cbn [ConnHist.c_op ConnHist.c_rv]. apply app_nil_r.
  - apply lift_ok in H as (H & -> & ->). apply obind_ok in H as (c1 & S1 & H). injection H as <-. change 0 with (code_of UCtl) in S1 at 1.
    apply S_open in S1 as (F & TX & s & G & KD & TG); [|left; reflexivity|exact L|right; split; [reflexivity|constructor; [exact FS|constructor]]].
    assert (forall j, find_stream (kk_tx c1 (Some id) (k_tenc c1) (k_tdec c1)) j = if j =? id then Some s else find_stream c j) as G' by exact G. set (c2 := kk_tx _ _ _ _) in *. split; [split|].
    + intros j s' Fj. unfold next, tlog1. cbn [ConnHist.c_op ConnHist.c_rv Z.eqb negb]. rewrite G' in Fj. destruct (Z.eqb_spec j id) as [->|N].
      * injection Fj as <-. destruct (LTc _ F) as [-> ->]. rewrite Z.eqb_refl, KD. exact TG.
      * destruct (Z.eqb_spec id j); [congruence|]. rewrite app_nil_r. auto.
    + intros j s' Fj. rewrite G' in Fj. destruct (Z.eqb_spec j id) as [->|N]; [|rewrite Fj; reflexivity]. injection Fj as <-. rewrite F. cbn [opened_as]. rewrite Z.eqb_refl. exact KD.
    + intros j s' Fj KJ. rewrite G' in Fj. destruct (Z.eqb_spec j id) as [->|N]; [reflexivity|]. pose proof (NK _ _ Fj KJ). congruence.
Qed.
Lemma S_bind_qpack c lf gf e d c' rv evs : LT c lf gf -> TI K c lf gf -> NI K c -> bind_qpack K c e d = KOk c' rv evs -> done K c lf gf (OBindQpack e d) rv evs c' /\ NI K c'.
Proof.
  intros LTc T NK H. assert (forall ty j, tlog1 K ty j (mk_call (OBindQpack e d) rv evs c') = []) as TL by (intros; unfold tlog1; cbn [ConnHist.c_op ConnHist.c_rv]; destruct (negb _); reflexivity).
  unfold bind_qpack in H. destruct (id_ok e && id_ok d && local_uni K e && local_uni K d) eqn:IO; [|discriminate]. apply andb_true_iff in IO as [IO L2]. apply andb_true_iff in IO as [_ L1]. cbn [negb] in H.
  assert (TI K c (next K lf (OBindQpack e d) rv evs c') gf) as T0 by (eapply TI_ext; [|exact T]; intros j _; unfold next; rewrite TL, app_nil_r; reflexivity).
  destruct (k_tenc c) as [q|] eqn:Q; [injection H as <- <- <-; split; [split; [exact T0|intros j s F; rewrite F; reflexivity]|exact NK]|].
  destruct (k_tdec c) as [q|] eqn:Q2; [injection H as <- <- <-; split; [split; [exact T0|intros j s F; rewrite F; reflexivity]|exact NK]|].
  apply lift_ok in H as (H & -> & ->). apply obind_ok in H as (c1 & S1 & H). apply obind_ok in H as (c2 & S2 & H). injection H as <-.
  change 2 with (code_of UEnc) in S1 at 1. change 3 with (code_of UDec) in S2 at 1.
  apply S_open in S1 as (F1 & TX1 & s1 & G1 & KD1 & TG1); [|right; left; reflexivity|exact L1|left; reflexivity].
  apply S_open in S2 as (F2 & TX2 & s2 & G2 & KD2 & TG2); [|right; right; reflexivity|exact L2|left; reflexivity].
  change (find_stream c1 d = None) in F2. rewrite G1 in F2. destruct (Z.eqb_spec d e) as [|ND]; [discriminate|].
  assert (forall j, find_stream (kk_tx c2 (k_tctl c2) (k_tenc c2) (Some d)) j = if j =? d then Some s2 else if j =? e then Some s1 else find_stream c j) as G.
  { intros j. change (find_stream c2 j = if j =? d then Some s2 else if j =? e then Some s1 else find_stream c j). rewrite G2. destruct (j =? d); auto. exact (G1 j). }
  assert (k_tctl c2 = k_tctl c) as TC by (injection TX1 as X1 _ _; injection TX2 as X2 _ _; cbn [k_tctl kk_tx] in X2; congruence).
  set (c3 := kk_tx _ _ _ _) in *. split; [split|].
  + intros j s' Fj. unfold next. rewrite TL, app_nil_r. rewrite G in Fj. destruct (Z.eqb_spec j d) as [->|N]; [|destruct (Z.eqb_spec j e) as [->|N']].
    * injection Fj as <-. destruct (LTc _ F2) as [-> ->]. rewrite KD2. exact TG2.
    * injection Fj as <-. destruct (LTc _ F1) as [-> ->]. rewrite KD1. exact TG1.
    * auto.
  + intros j s' Fj. rewrite G in Fj. cbn [opened_as]. destruct (Z.eqb_spec j d) as [->|N]; [|destruct (Z.eqb_spec j e) as [->|N']].
    * injection Fj as <-. rewrite F2. destruct (Z.eqb_spec e d); [congruence|]. rewrite Z.eqb_refl. exact KD2.
    * injection Fj as <-. rewrite F1. rewrite Z.eqb_refl. exact KD1.
    * rewrite Fj. reflexivity.
  + intros j s' Fj KJ. rewrite G in Fj. change (k_tctl c3) with (k_tctl c2). rewrite TC. destruct (Z.eqb_spec j d) as [->|N]; [injection Fj as <-; rewrite KD2 in KJ; discriminate|].
    destruct (Z.eqb_spec j e) as [->|N']; [injection Fj as <-; rewrite KD1 in KJ; discriminate|]. eapply NK; eauto.
Qed.

(* one call *)
Definition cok (c : conn) (lf : Z -> list tev) (o : cop) : Prop :=
  match o with
  | ORequest _ nva _ => nva <> []
  | OInfo i nva | OResponse i nva _ | OTrailers i nva => nva <> [] /\ client_bidi i = true
  | OClientPriority _ data => bytes data /\ zlen data < 2 ^ 61
  | OAddWrite i n => find_stream c i <> None -> 0 <= n /\ l_sent (tled (lf i)) + n <= l_hi (tled (lf i))
  | ConnModel.OAddAck i n => find_stream c i <> None -> 0 <= n /\ l_acked (tled (lf i)) + n <= l_sent (tled (lf i))
  | OUpdateAck i off => find_stream c i <> None -> 0 <= off <= l_sent (tled (lf i))
  | OWritev _ => get_decoder_streamlen (k_dec c) < 2 ^ 62 /\ next_absidx (d_ctx (k_dec c)) < 2 ^ 62
  | _ => True
  end.
Lemma notfound c lf gf o evs c' rv : rv <> 0 -> (forall id, opened_as id o = None) -> (forall n, o <> OWritev n) -> LT c lf gf -> TI K c lf gf -> c' = c -> done K c lf gf o rv evs c'.
Proof.
  intros NZ OA NW L T ->. apply done_quiet; auto; [|apply stay_quiet, stay_refl]. intros ty id. unfold tlog1. cbn [ConnHist.c_op ConnHist.c_rv]. apply Z.eqb_neq in NZ. rewrite NZ. destruct o; try reflexivity. exfalso. eapply NW; reflexivity.
Qed.
Theorem S_step c lf gf o c' rv evs : frame_ok (FSettings (ke_set K)) -> wf K c -> op_ok o -> DI K c -> NI K c -> LT c lf gf -> TI K c lf gf -> dbuf_ok (k_dec c) -> -4 <= k_maxid c -> NHL lf -> cok c lf o ->
  kstep K c o = KOk c' rv evs -> exists id es, done K c lf (ggrow c id es gf) o rv evs c' /\ NI K c' /\ ((forall n, o <> OWritev n) -> es = []) /\ (k_tenc c = None -> es = []) /\ (sections (submitted (lf id)) = [] -> es = []).
Proof.
  intros FS W O D NK L T DB MX NH C S.
  assert (forall c1 o1 rv1 evs1 gf1 gf2, (forall j, gf1 j = gf2 j) -> done K c lf gf1 o1 rv1 evs1 c1 -> done K c lf gf2 o1 rv1 evs1 c1) as DE.
  { intros c1 o1 rv1 evs1 gf1 gf2 E [X Y]. split; [eapply TI_gext; [exact E|exact X]|exact Y]. }
  assert (KB c) as KBc by (split; intros q s Q F; [eapply DI_enc|eapply DI_dec]; eauto).
  assert (forall q, bound c q -> client_bidi q = false) as BQ.
  { intros q Q. destruct (wf_tx _ _ W q Q) as (LU & _). destruct (client_bidi q) eqn:CB; [|reflexivity]. exfalso. eapply local_not_bidi; eauto. }
  assert ((exists n, o = OWritev n) \/ forall n, o <> OWritev n) as [(n & ->)|NW] by (destruct o; (left; eexists; reflexivity) || (right; discriminate)).
  { cbn [kstep] in S. destruct C as [C1 C2]. pose proof S as S'. apply (S_writev _ lf gf) in S as (id & es & DN & E1 & E2); auto. exists id, es. split; [exact DN|]. split; [|split; [intros X; elim (X n); reflexivity|auto]].
    destruct DN as [_ KD]. pose proof (step_txs K c (OWritev n) _ _ _ W O eq_refl S') as TX. injection TX as T1 _ _. intros j s' Fj KJ. rewrite T1. rewrite (KD _ _ Fj) in KJ.
    destruct (find_stream c j) as [s|] eqn:F; [eapply NK; eauto|]. discriminate. }
  enough (done K c lf gf o rv evs c' /\ NI K c') as [X Y].
  { exists 0, []. split; [eapply DE; [|exact X]; intros j; symmetry; apply ggrow_nil|]. auto. }
  destruct (is_bind o) eqn:B; [destruct o; try discriminate B; cbn [kstep] in S; [eapply S_bind_control; eauto|eapply S_bind_qpack; eauto]|].
  assert (done K c lf gf o rv evs c') as DN.
  { destruct o; try discriminate B; cbn [kstep] in S; cbn [cok op_ok] in *.
    - apply done_quiet; auto; [intros; unfold tlog1; cbn [ConnHist.c_op ConnHist.c_rv]; destruct (negb _); reflexivity|]. eapply q_read; eauto.
    - exfalso. eapply NW. reflexivity.
    - eapply S_written; eauto.
    - eapply (S_ack K c lf gf id _ (ConnModel.OAddAck id n) (TxSpec.OAddAck n)); eauto. left; split; [reflexivity|]; split; [eauto|reflexivity].
    - eapply (S_ack K c lf gf id _ (OUpdateAck id off) (OAck off)); eauto. right; split; [reflexivity|]; split; [eauto|reflexivity].
    - eapply S_request; eauto.
    - destruct C as [C1 C2]. unfold submit_info in S. destruct (negb _); [discriminate|]. destruct (find_stream c id) as [s|] eqn:F; [|injection S as <- <- <-; apply notfound; auto; discriminate].
      eapply S_more; eauto; intros ty j; unfold tlog1; cbn [ConnHist.c_op ConnHist.c_rv Z.eqb negb]; reflexivity.
    - destruct C as [C1 C2]. unfold submit_response in S. destruct (negb _); [discriminate|]. destruct (find_stream c id) as [s|] eqn:F; [|injection S as <- <- <-; apply notfound; auto; discriminate].
      eapply S_more; eauto; intros ty j; unfold tlog1; cbn [ConnHist.c_op ConnHist.c_rv Z.eqb negb]; reflexivity.
    - destruct C as [C1 C2]. unfold submit_trailers in S. destruct (negb _); [discriminate|]. destruct (find_stream c id) as [s|] eqn:F; [|injection S as <- <- <-; apply notfound; auto; discriminate].
      destruct (t_end _); [injection S as <- <- <-; apply notfound; auto; discriminate|].
      eapply S_more; eauto; intros ty j; unfold tlog1; cbn [ConnHist.c_op ConnHist.c_rv Z.eqb negb]; reflexivity.
    - apply queue_inv in S as (q & s & Q & F & _ & -> & -> & ->). eapply (S_ctl K c lf gf q s (FGoaway (if ke_server K then NOTICE_STREAM_ID else NOTICE_PUSH_ID)) ONotice); [exact EN|exact T|exact D|exact NK|exact Q|exact F| |reflexivity|].
      + cbn [frame_ok]. unfold NOTICE_STREAM_ID, NOTICE_PUSH_ID. destruct (ke_server K); lia.
      + intros ty j. unfold tlog1. cbn [ConnHist.c_op ConnHist.c_rv Z.eqb negb c_post]. reflexivity.
    - apply queue_inv in S as (q & s & Q & F & _ & -> & -> & ->). eapply (S_ctl K c lf gf q s (FGoaway (if ke_server K then Z.min (2 ^ 62 - 4) (k_maxid c + 4) else 0)) OShutdown); [exact EN|exact T|exact D|exact NK|exact Q|exact F| |reflexivity|].
      + cbn [frame_ok]. destruct (ke_server K); lia.
      + intros ty j. unfold tlog1. cbn [ConnHist.c_op ConnHist.c_rv Z.eqb negb c_post]. reflexivity.
    - eapply S_block; eauto; [intros; split; auto|]. intros; unfold tlog1; cbn [ConnHist.c_op ConnHist.c_rv]; destruct (negb _); reflexivity.
    - eapply S_wake; eauto; [intros; split; auto|]. intros; unfold tlog1; cbn [ConnHist.c_op ConnHist.c_rv]; destruct (negb _); reflexivity.
    - eapply S_block; eauto; [intros; split; auto|]. intros; unfold tlog1; cbn [ConnHist.c_op ConnHist.c_rv]; destruct (negb _); reflexivity.
    - eapply S_resume; eauto.
    - apply done_quiet; auto; [intros; unfold tlog1; cbn [ConnHist.c_op ConnHist.c_rv]; destruct (negb _); reflexivity|]. apply stay_quiet. eapply q_close; eauto.
    - apply done_quiet; auto; [intros; unfold tlog1; cbn [ConnHist.c_op ConnHist.c_rv]; destruct (negb _); reflexivity|]. apply stay_quiet. eapply q_shut; eauto.
    - apply done_quiet; auto; [intros; unfold tlog1; cbn [ConnHist.c_op ConnHist.c_rv]; destruct (negb _); reflexivity|]. unfold set_max_client in S. destruct (_ && _); [|discriminate]. injection S as <- _ _. apply stay_quiet, stay_same. reflexivity.
    - apply done_quiet; auto; [intros; unfold tlog1; cbn [ConnHist.c_op ConnHist.c_rv]; destruct (negb _); reflexivity|]. unfold set_max_concurrent in S. injection S as <- _ _. apply stay_quiet, stay_same. reflexivity.
    - unfold set_client_priority in S. destruct (ke_server K || negb (id_ok id)) eqn:G; [discriminate|]. apply orb_false_iff in G as [_ G]. apply negb_false_iff in G.
      destruct (negb _); [injection S as <- <- <-; apply notfound; auto; discriminate|]. destruct (find_stream c id) as [s0|] eqn:F0; [|injection S as <- <- <-; apply notfound; auto; discriminate].
      destruct (k_tctl c) as [q|] eqn:Q; [|discriminate]. destruct (find_stream c q) as [s|] eqn:F; [|discriminate]. injection S as <- <- <-.
      eapply (S_ctl K c lf gf q s (FPrio id data) (OClientPriority id data)); [exact EN|exact T|exact D|exact NK|exact Q|exact F| |reflexivity|].
      + cbn [frame_ok]. unfold id_ok, max_varint in G. split; [lia|exact C].
      + intros ty j. unfold tlog1. cbn [ConnHist.c_op ConnHist.c_rv Z.eqb negb]. reflexivity.
    - apply done_quiet; auto; [intros; unfold tlog1; cbn [ConnHist.c_op ConnHist.c_rv]; destruct (negb _); reflexivity|]. apply stay_quiet. eapply q_server; eauto. }
  split; [exact DN|]. destruct DN as [_ KD]. pose proof (step_txs K _ _ _ _ _ W O B S) as TX. injection TX as T1 _ _. intros j s' Fj KJ. rewrite T1. rewrite (KD _ _ Fj) in KJ.
  destruct (find_stream c j) as [s|] eqn:F; [eapply NK; eauto|]. destruct o; discriminate.
Qed.
End Send.

(* histories of calls *)
Section Hist.
Context (K : kenv).
Context (EF : env_fine K).
Lemma hist_maxid h c : history K h c -> -4 <= k_maxid c.
Proof.
  revert h c. apply (hist_inv K (fun _ c => -4 <= k_maxid c)); [cbn; lia|]. intros h c o c' rv evs H W O IH S.
  destruct (hist_below K h c H) as [BL _]. destruct (step_below K _ _ _ _ _ W O S BL) as [_ M]. lia.
Qed.
Lemma hist_dbuf h c : history K h c -> dbuf_ok (k_dec c).
Proof.
  intros H. destruct EF as [_ (_ & [CAP _] & _)]. destruct (hist_R K CAP h c H) as [R _]. pose proof (proj1 (proj2 (r_dec _ _ _ _ R) 0)) as RD.
  eapply evolves_dbuf; [exact RD|split; [apply es_inv_init; exact CAP|reflexivity]|]. split; [constructor|cbn; lia].
Qed.
Lemma after_hist h c : history K h c -> after K h = c.
Proof. intros H. destruct H; [reflexivity|]. unfold after. rewrite rev_app_distr. reflexivity. Qed.
Lemma sending_prefix h x : sending_ok K (h ++ [x]) -> sending_ok K h.
Proof. intros S pre y post E. apply (S pre y (post ++ [x])). rewrite E, <- app_assoc. reflexivity. Qed.
(* header sections are submitted on request streams only *)
Lemma life_in id h x : In x (life id h) -> In x h.
Proof. induction h as [|y h IH] using rev_ind; [intros []|]. rewrite life_snoc. destruct (is_open _ _); [|intros []]. intros I. apply in_app_iff in I as [I|I]; apply in_app_iff; auto. Qed.
Lemma offers_sections id evs : sections (submitted (offers_of id evs)) = [].
Proof. induction evs as [|e evs IH]; [reflexivity|]. unfold offers_of in *. cbn [map concat]. rewrite submitted_snoc, sections_app, IH, app_nil_r. destruct e; try reflexivity. destruct (_ =? _); reflexivity. Qed.
Lemma hist_NHL h c : history K h c -> sending_ok K h -> NHL (fun id => slog K id h).
Proof.
  intros H S id CB. assert (forall l, (forall x, In x l -> In x h) -> forall ty, sections (submitted (concat (map (tlog1 K ty id) l))) = []) as X; [|apply X; intros x; apply life_in].
  induction l as [|x l IH]; intros SUB ty; [reflexivity|]. cbn [map concat]. rewrite submitted_snoc, sections_app, IH by (intros y I; apply SUB; right; exact I). rewrite app_nil_r.
  specialize (SUB x (or_introl eq_refl)). apply in_split in SUB as (a & b & E). destruct (history_split K _ _ H a x b E) as (c0 & H0 & _ & ST). pose proof (S a x b E) as CO. rewrite (after_hist _ _ H0) in CO.
  destruct x as [o rv evs c1]. unfold tlog1. cbn [ConnHist.c_op ConnHist.c_rv c_post c_evs] in *. cbv zeta.
  destruct o; try (apply offers_sections); (destruct (rv =? 0); cbn [negb]; [|reflexivity]); try reflexivity.
  all: try (destruct (Z.eqb_spec id0 id) as [-> |]; [|reflexivity]); try reflexivity.
  all: try (destruct (is_ctl ty); reflexivity).
  all: cbn [call_ok] in CO; try (destruct CO as [_ CO]; congruence).
  cbn [kstep] in ST. unfold submit_request in ST. destruct (ke_server K || negb (has_enc c0 && id_ok id && client_bidi id)) eqn:G; [discriminate|].
  apply orb_false_elim in G as [_ G]. rewrite CB, andb_false_r in G. discriminate.
Qed.
Definition TG (h : list kcall) (c : conn) (gf : Z -> gh) : Prop :=
  TI K c (fun id => slog K id h) gf /\ (forall id, find_stream c id = None -> gf id = g0) /\ (forall id s, find_stream c id = Some s -> kind K id s = stype id h) /\ NI K c.
Lemma TG_step h c o c' rv evs gf : history K h c -> wf K c -> op_ok o -> sending_ok K (h ++ [mk_call o rv evs c']) -> TG h c gf -> kstep K c o = KOk c' rv evs ->
  exists id es gf', TG (h ++ [mk_call o rv evs c']) c' gf' /\ (forall j, find_stream c' j <> None -> gf' j = ggrow c id es gf j) /\
    ((forall n, o <> OWritev n) -> es = []) /\ (k_tenc c = None -> es = []) /\ (sections (submitted (slog K id h)) = [] -> es = []).
Proof.
  intros H W O SO (T & GC & KS & NK) S. pose proof (sending_prefix _ _ SO) as SP.
  pose proof (SO h (mk_call o rv evs c') [] eq_refl) as CO. rewrite (after_hist _ _ H) in CO. cbn [ConnHist.c_op] in CO.
  assert (LT c (fun id => slog K id h) gf) as L by (intros id F; split; [unfold slog; rewrite (life_closed K h c id H F); reflexivity|auto]).
  assert (cok c (fun id => slog K id h) o) as CK.
  { assert (forall i, find_stream c i <> None -> life i h <> []) as LO by (intros i F; apply (life_open K h c i H); unfold is_open; destruct (find_stream c i); congruence).
    destruct o; auto; cbn [cok call_ok] in *; intros F; apply CO; apply LO; exact F. }
  destruct EF as [EN FS].
  destruct (S_step K EN c _ gf o c' rv evs FS W O (hist_DI K h c H) NK L T (hist_dbuf h c H) (hist_maxid h c H) (hist_NHL h c H SP) CK S) as (id & es & [T' KD] & NK' & E1 & E2 & E3).
  assert (forall id s, find_stream c' id = Some s -> kind K id s = stype id (h ++ [mk_call o rv evs c'])) as KS'.
  { intros i s F. rewrite (KD _ _ F). unfold stype. rewrite life_snoc. unfold is_open. cbn [c_post]. rewrite F. destruct (find_stream c i) as [s0|] eqn:F0.
    - rewrite (KS _ _ F0). unfold stype. destruct (life i h) eqn:LF; [|reflexivity]. exfalso. apply (life_open K h c i H); [unfold is_open; rewrite F0; reflexivity|exact LF].
    - rewrite (life_closed K h c i H F0). reflexivity. }
  exists id, es, (fun j => match find_stream c' j with Some _ => ggrow c id es gf j | None => g0 end). split; [|split; [intros j N; destruct (find_stream c' j); [reflexivity|congruence]|auto]].
  split; [|split; [intros j F; rewrite F; reflexivity|split; auto]].
  enough (TI K c' (fun id0 => slog K id0 (h ++ [mk_call o rv evs c'])) (ggrow c id es gf)) as X. { intros j s F. rewrite F. apply X. exact F. }
  eapply TI_ext; [|exact T']. intros i NF. destruct (find_stream c' i) as [s|] eqn:F; [|congruence]. unfold next, kindc. rewrite F, (KS' _ _ F).
  unfold slog at 2. rewrite life_snoc. unfold is_open. cbn [c_post]. rewrite F, map_app, concat_app. cbn [map concat]. rewrite app_nil_r. f_equal.
  destruct (find_stream c i) as [s0|] eqn:F0; [|unfold slog; rewrite (life_closed K h c i H F0); reflexivity].
  rewrite <- (KS' _ _ F), (KD _ _ F), F0, (KS _ _ F0). reflexivity.
Qed.
Lemma TG_init : TG [] (conn_init K) (fun _ => g0).
Proof. repeat split; intros id s; discriminate. Qed.
Theorem hist_T h c : history K h c -> sending_ok K h -> exists gf, TG h c gf.
Proof.
  revert h c. apply (hist_inv K (fun h c => sending_ok K h -> exists gf, TG h c gf)).
  { intros _. exists (fun _ => g0). exact TG_init. }
  intros h c o c' rv evs H W O IH S SO. destruct (IH (sending_prefix _ _ SO)) as (gf & G). destruct (TG_step h c o c' rv evs gf H W O SO G S) as (_ & _ & gf' & G' & _). exists gf'. exact G'.
Qed.
Theorem hist_sending h c id s : history K h c -> sending_ok K h -> find_stream c id = Some s -> txgood (ke_tx K id) (stype id h) (st_t s) (slog K id h).
Proof. intros H S F. destruct (hist_T h c H S) as (gf & T & _ & KS & _). rewrite <- (KS _ _ F). eapply txgx_good. apply T. exact F. Qed.
Theorem hist_ctl h c id : history K h c -> sending_ok K h -> k_tctl c = Some id <-> stype id h = Some 0.
Proof.
  intros H S. destruct (hist_T h c H S) as (gf & T & _ & KS & NK). split.
  - intros Q. destruct (hist_DI K h c H id) as (D & _). destruct (D Q) as (L & s & F & U). rewrite <- (KS _ _ F). unfold kind. rewrite L, U. reflexivity.
  - intros E. destruct (find_stream c id) as [s|] eqn:F; [eapply NK; eauto; rewrite (KS _ _ F); exact E|]. unfold stype in E. rewrite (life_closed K h c id H F) in E. discriminate.
Qed.
End Hist.
