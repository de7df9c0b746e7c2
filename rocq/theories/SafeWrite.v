(* Sending never aborts (C49): nghttp3_conn_writev_stream, the offsets *)
From Verif Require Import Base BaseLemmas Chunk ConvModel ConvSpec RdVarint QpackTabModel QpackDecModel QpackDecProofs QpackHistProofs HttpModel
  BidiModel BidiHist BidiSpec BidiCut ControlModel GapModel PqModel PqProofs TxModel TxSpec TxFill TxTrace SchedModel SchedProofs
  ConnModel ConnCtl ConnStep ConnWf ConnDecomp ConnHist ConnRead ConnShut ConnSched ConnOffer SendSpec ConnTx TxGhost ConnKind ConnSend ConnSend2.
Open Scope Z_scope.

Section Write.
Context (K : kenv) (EN : forall i, enc_ok (ke_tx K i)).
Definition fwd (c c' : conn) : Prop := forall j, find_stream c j <> None -> find_stream c' j <> None.
Lemma fwd_refl c : fwd c c. Proof. intros j H. exact H. Qed.
Lemma fwd_trans a b c : fwd a b -> fwd b c -> fwd a c. Proof. intros A B j H. auto. Qed.
Lemma fwd_put c id s : fwd c (put c id s).
Proof. intros j H. rewrite find_put. destruct (Z.eqb_spec j id) as [->|]; auto. destruct (find_stream c id); [discriminate|congruence]. Qed.
Lemma fwd_ebufs es c c1 : add_ebufs c es = Ok c1 -> fwd c c1.
Proof.
  apply (add_ebufs_P (fun x => fwd c x)); [|apply fwd_refl]. intros d q s t e S _ _ _. eapply fwd_trans; [exact S|apply fwd_put].
Qed.
Lemma fwd_cw c id n c1 r : conn_writev K c id n = Ok (c1, r) -> fwd c c1.
Proof. intros H. apply conn_writev_split in H as (s & t & es & _ & _ & AE & _). eapply fwd_trans; [apply fwd_put|eapply fwd_ebufs; exact AE]. Qed.
Lemma fwd_try c w n c1 r : try_uni K c w n = Ok (c1, r) -> fwd c c1.
Proof.
  unfold try_uni. destruct w as [id|]; [|intros [= <- _]; apply fwd_refl]. destruct (find_stream c id); [|discriminate]. destruct (is_blocked s); [intros [= <- _]; apply fwd_refl|].
  intros H. apply obind_ok in H as ([c2 o] & CW & H). injection H as <- _. eapply fwd_cw; eauto.
Qed.
Lemma fwd_flush c c1 : flush_decoder c = Ok c1 -> fwd c c1.
Proof.
  unfold flush_decoder. destruct (k_tdec c) as [id|]; [|intros [= <-]; apply fwd_refl]. destruct (find_stream c id); [|discriminate]. destruct (is_blocked s); [intros [= <-]; apply fwd_refl|].
  destruct (_ =? 0); [intros [= <-]; apply fwd_refl|]. intros H. apply obind_ok in H as ([d l] & _ & H). apply obind_ok in H as (t & _ & H). injection H as <-. apply (fwd_trans c (kk_dec c d)); [intros j Hj; exact Hj|apply fwd_put].
Qed.
(* the endpoint's own streams are there *)
Definition TXF (c : conn) : Prop := forall q, bound c q -> find_stream c q <> None.
Lemma TXF_keep c c' : txs_of c' = txs_of c -> fwd c c' -> TXF c -> TXF c'.
Proof. intros E F T q B. apply F. apply T. unfold bound in *. injection E as E1 E2 E3. rewrite E1, E2, E3 in B. exact B. Qed.

Lemma N_ebufs es : forall c lf gf, TI K c lf gf -> KB K c -> TXF c -> Forall instr_ok es -> (k_tenc c = None -> es = []) -> add_ebufs c es <> Abort.
Proof.
  induction es as [|e es IH]; intros c lf gf T B X FO NE; cbn [add_ebufs]; [discriminate|]. inversion FO as [|? ? F1 F2]; subst.
  destruct (k_tenc c) as [q|] eqn:Q; [|specialize (NE eq_refl); discriminate]. destruct (find_stream c q) as [s|] eqn:F; [|elim (X q); [right; left; exact Q|exact F]].
  pose proof (proj1 B _ _ Q F) as KD. pose proof (T _ _ F) as G. rewrite KD in G. pose proof (tg_ebuf _ _ _ _ _ (proj1 (EN q)) G F1) as TE.
  destruct (write_ebuf (st_t s) e) as [t|e0|]; cbn [obind]; [|discriminate|contradiction]. destruct TE as [TE _]. rewrite <- KD in TE.
  eapply (IH _ lf).
  - exact (W_put _ _ _ _ _ _ _ _ T F TE).
  - exact (keepk_KB _ _ _ (keepk_put K _ _ _ t F) B).
  - apply (TXF_keep c); auto. apply fwd_put.
  - exact F2.
  - cbn [k_tenc put kk_str]. congruence.
Qed.
Lemma N_offer c lf gf id s n : TI K c lf gf -> find_stream c id = Some s -> n <> O -> writev (st_t s) n <> Abort.
Proof. intros T F N H. pose proof (tg_offer _ _ _ _ _ n (kind_known K id s) (proj1 (EN id)) (T _ _ F) N) as G. rewrite H in G. exact G. Qed.
Lemma N_cw c lf gf id s n : TI K c lf gf -> KB K c -> TXF c -> n <> O -> find_stream c id = Some s -> (k_tenc c = None -> no_headers (t_frq (st_t s))) -> conn_writev K c id n <> Abort.
Proof.
  intros T B X NZ F NH. unfold conn_writev. rewrite F.
  pose proof (tg_fill _ _ _ _ _ (kind_known K id s) (EN id) (T _ _ F)) as TF. destruct (tx_fill (ke_tx K id) (st_t s)) as [[t es]|e|]; cbn [obind]; [|discriminate|contradiction]. destruct TF as (TF & IO & NE).
  pose proof (W_put _ _ _ _ _ _ _ _ T F TF) as T1. pose proof (keepk_KB _ _ _ (keepk_put K _ _ _ t F) B) as B1.
  assert (TXF (put c id (ss_t s t))) as X1 by (apply (TXF_keep c); auto; apply fwd_put).
  assert (k_tenc (put c id (ss_t s t)) = None -> es = []) as NE1 by (intros Q; apply NE; apply NH; exact Q).
  pose proof (N_ebufs es _ lf _ T1 B1 X1 IO NE1) as N1.
  destruct (add_ebufs (put c id (ss_t s t)) es) as [c2|e|] eqn:AE; cbn [obind]; [|discriminate|congruence].
  destruct (W_ebufs K EN es _ lf _ c2 T1 B1 IO AE) as (T2 & K2 & _ & _). pose proof (fwd_ebufs _ _ _ AE) as FW.
  assert (TXF c2) as X2 by (apply (TXF_keep (put c id (ss_t s t))); auto; apply (kb_tx _ _ _ K2)).
  assert (find_stream c2 id <> None) as F2 by (apply FW; rewrite find_put, F, Z.eqb_refl; discriminate).
  assert (forall ea, match (if stream_uni id then None else k_tenc c2) with
      | None => Ok None
      | Some q => match find_stream c2 q with None => Abort | Some sq => if is_blocked sq then Ok None else obind (writev (st_t sq) n) (fun '(vs, fin) => Ok (if Nat.eqb (length vs) 0 then None else Some (q, vs, fin))) end
      end = ea -> ea <> Abort) as EA.
  { intros ea <-. destruct (stream_uni id); [discriminate|]. destruct (k_tenc c2) as [q|] eqn:Q; [|discriminate]. destruct (find_stream c2 q) as [sq|] eqn:Fq; [|elim (X2 q); [right; left; exact Q|exact Fq]].
    destruct (is_blocked sq); [discriminate|]. pose proof (N_offer c2 lf _ q sq n T2 Fq NZ). destruct (writev (st_t sq) n) as [[vs fin]|e|]; cbn [obind]; congruence. }
  match goal with |- obind ?ea _ <> _ => specialize (EA ea eq_refl); destruct ea as [early|e|]; cbn [obind]; [|discriminate|congruence] end.
  destruct early as [o|]; [discriminate|]. destruct (find_stream c2 id) as [s2|] eqn:Fs; [|congruence]. pose proof (N_offer c2 lf _ id s2 n T2 Fs NZ). destruct (writev (st_t s2) n) as [[vs fin]|e|]; cbn [obind]; congruence.
Qed.
Lemma N_try c lf gf w n : TI K c lf gf -> KB K c -> TXF c -> n <> O -> (w = k_tctl c \/ w = k_tenc c \/ w = k_tdec c) -> (k_tenc c = None -> forall id s, w = Some id -> find_stream c id = Some s -> no_headers (t_frq (st_t s))) -> try_uni K c w n <> Abort.
Proof.
  intros T B X NZ W NH. unfold try_uni. destruct w as [id|]; [|discriminate]. destruct (find_stream c id) as [s|] eqn:F.
  2:{ elim (X id); [|exact F]. unfold bound. intuition congruence. }
  destruct (is_blocked s); [discriminate|]. pose proof (N_cw c lf gf id s n T B X NZ F) as N. destruct (conn_writev K c id n) as [[c1 o]|e|]; cbn [obind]; try discriminate. exfalso. apply N; auto. intros Q. eapply NH; eauto.
Qed.
Lemma N_flush c lf gf : TI K c lf gf -> KB K c -> TXF c -> dbuf_ok (k_dec c) -> get_decoder_streamlen (k_dec c) < 2 ^ 62 -> next_absidx (d_ctx (k_dec c)) < 2 ^ 62 -> flush_decoder c <> Abort.
Proof.
  intros T B X D L1 L2. unfold flush_decoder. destruct (k_tdec c) as [id|] eqn:Q; [|discriminate]. destruct (find_stream c id) as [s|] eqn:F; [|elim (X id); [right; right; exact Q|exact F]].
  destruct (is_blocked s); [discriminate|]. destruct (Z.eqb_spec (get_decoder_streamlen (k_dec c)) 0) as [|NZ]; [discriminate|].
  destruct (write_decoder (k_dec c) (get_decoder_streamlen (k_dec c))) as [[d l]|e|] eqn:WD; cbn [obind]; [|discriminate|].
  2:{ unfold write_decoder in WD. rewrite Z.ltb_irrefl in WD. destruct (_ <? _); discriminate. }
  destruct (decoder_bytes _ _ _ D NZ L1 L2 WD) as (A1 & A2 & A3). pose proof (T _ _ F) as G. rewrite (proj2 B _ _ Q F) in G.
  pose proof (tg_raw _ _ _ _ l (proj1 (EN id)) G A1 A2 A3) as TR. destruct (write_raw (st_t s) l); cbn [obind]; congruence.
Qed.
Lemma N_writev c lf gf n : wf K c -> SI (fun _ => False) c -> TI K c lf gf -> KB K c -> NHL lf -> dbuf_ok (k_dec c) -> get_decoder_streamlen (k_dec c) < 2 ^ 62 -> next_absidx (d_ctx (k_dec c)) < 2 ^ 62 ->
  (k_tdec c <> None -> k_tenc c <> None) -> (k_tenc c = None -> forall id s, find_stream c id = Some s -> no_headers (t_frq (st_t s))) -> writev_call K c n <> KAbort.
Proof.
  intros W SI0 T B NHl D L1 L2 DE NH.
  enough (writev_stream K c n <> Abort) as X by (unfold writev_call; destruct (writev_stream K c n) as [[c1 [[[i vs] fin]|]]|e|]; congruence).
  unfold writev_stream. destruct (Nat.eqb n 0) eqn:N0; [discriminate|]. assert (n <> O) as NZ by (intros ->; discriminate).
  assert (TXF c) as X by (intros q Q; destruct (wf_tx _ _ W q Q) as (_ & s & F & _); congruence).
  assert (forall c' q, txs_of c' = txs_of c -> (k_tctl c' = Some q \/ k_tenc c' = Some q \/ k_tdec c' = Some q) -> sections (submitted (lf q)) = []) as NS.
  { intros c' q X0 Y. apply NHl. injection X0 as X1 X2 X3. destruct (wf_tx _ _ W q) as (LU & _); [unfold bound; rewrite <- X1, <- X2, <- X3; exact Y|]. destruct (client_bidi q) eqn:CB; [|reflexivity]. exfalso. eapply local_not_bidi; eauto. }
  pose proof (N_try c lf gf (k_tctl c) n T B X NZ (or_introl eq_refl)) as N1. destruct (try_uni K c (k_tctl c) n) as [[c1 o1]|e|] eqn:E1; cbn [obind]; [|discriminate|exfalso; apply N1; eauto]. clear N1.
  destruct o1; [discriminate|]. destruct (W_try K EN c lf gf _ n c1 _ T B (fun q Q => NS c q eq_refl (or_introl Q)) E1) as (T1 & K1 & D1 & _). pose proof (keepk_KB _ _ _ K1 B) as B1.
  destruct (try_shape K c c _ n c1 _ W (keeps_refl c) (or_introl eq_refl) E1) as [P1 _]. pose proof (TXF_keep _ _ (kb_tx _ _ _ K1) (fwd_try _ _ _ _ _ E1) X) as X1.
  assert (dbuf_ok (k_dec c1)) as D1' by (rewrite D1; exact D).
  pose proof (N_flush c1 lf gf T1 B1 X1 D1') as N2. rewrite D1 in N2. specialize (N2 L1 L2). destruct (flush_decoder c1) as [c2|e|] eqn:E2; cbn [obind]; [|discriminate|congruence]. clear N2.
  assert (TI K c2 lf gf /\ keepk K c1 c2) as [T2 K2] by (eapply (W_flush K EN c1 lf gf c2); eauto; rewrite D1; auto). pose proof (keepk_KB _ _ _ K2 B1) as B2.
  pose proof (flush_keeps K c c1 c2 W P1 E2) as P2. pose proof (TXF_keep _ _ (kb_tx _ _ _ K2) (fwd_flush _ _ E2) X1) as X2.
  assert (k_tctl c2 = k_tctl c /\ k_tenc c2 = k_tenc c /\ k_tdec c2 = k_tdec c) as (Q1 & Q2 & Q3) by apply (kp_tx _ _ P2).
  assert (forall c', k_tenc c' = k_tenc c -> k_tdec c' = k_tdec c -> k_tenc c' = None -> forall id s, k_tdec c' = Some id -> find_stream c' id = Some s -> no_headers (t_frq (st_t s))) as ND.
  { intros c' A1 A2 A3 id s A4 _. exfalso. apply DE; congruence. }
  pose proof (N_try c2 lf gf (k_tdec c2) n T2 B2 X2 NZ (or_intror (or_intror eq_refl)) (ND c2 Q2 Q3)) as N3. destruct (try_uni K c2 (k_tdec c2) n) as [[c3 o3]|e|] eqn:E3; cbn [obind]; [|discriminate|congruence]. clear N3.
  destruct o3; [discriminate|]. destruct (W_try K EN c2 lf gf _ n c3 _ T2 B2 (fun q Q => NS c2 q (eq_trans (kb_tx _ _ _ K2) (kb_tx _ _ _ K1)) (or_intror (or_intror Q))) E3) as (T3 & K3 & _ & _). pose proof (keepk_KB _ _ _ K3 B2) as B3.
  destruct (try_shape K c c2 _ n c3 _ W P2 (or_intror (or_intror eq_refl)) E3) as [P3 _]. pose proof (TXF_keep _ _ (kb_tx _ _ _ K3) (fwd_try _ _ _ _ _ E3) X2) as X3.
  pose proof (N_try c3 lf gf (k_tenc c3) n T3 B3 X3 NZ (or_intror (or_introl eq_refl))) as N4.
  destruct (try_uni K c3 (k_tenc c3) n) as [[c4 o4]|e|] eqn:E4; cbn [obind]; [|discriminate|exfalso; apply N4; auto; congruence]. clear N4.
  destruct o4; [discriminate|]. destruct (W_try K EN c3 lf gf _ n c4 _ T3 B3 (fun q Q => NS c3 q (eq_trans (kb_tx _ _ _ K3) (eq_trans (kb_tx _ _ _ K2) (kb_tx _ _ _ K1))) (or_intror (or_introl Q))) E4) as (T4 & K4 & _ & _). pose proof (keepk_KB _ _ _ K4 B3) as B4.
  destruct (try_shape K c c3 _ n c4 _ W P3 (or_intror (or_introl eq_refl)) E4) as [P4 _]. pose proof (TXF_keep _ _ (kb_tx _ _ _ K4) (fwd_try _ _ _ _ _ E4) X3) as X4.
  destruct SI0 as (SV & SF & _). pose proof (get_next_ok (k_sch c) SV) as GN. rewrite (kp_sch _ _ P4). destruct (get_next_tx (k_sch c)) as [[id|]|e|]; cbn [obind]; try contradiction; [|discriminate].
  destruct GN as [SD _]. destruct (SF id SD) as (s & F & CB & _). pose proof (kp_bidi _ _ P4 id CB) as F4. rewrite F in F4.
  pose proof (N_cw c4 lf gf id s n T4 B4 X4 NZ F4) as N5. destruct (conn_writev K c4 id n) as [[c5 o5]|e|] eqn:E5; cbn [obind]; [|discriminate|exfalso; apply N5; auto; intros Q; eapply NH; eauto; rewrite <- Q; symmetry; apply (kp_tx _ _ P4)].
  destruct (find_stream c5 id) as [s5|] eqn:F5; [|elim (fwd_cw _ _ _ _ _ E5 id); congruence]. rewrite CB.
  assert (k_sch c5 = k_sch c) as S5.
  { destruct (cw_shape K c c4 id n c5 o5 W P4 E5) as (s0 & t & es & _ & _ & AE & _). rewrite (add_ebufs_sch _ _ _ AE). exact (kp_sch _ _ P4). }
  rewrite S5. destruct (sc_offered_s (k_sch c) id (require s5) SV) as (sc & SO & _). unfold sched_do. rewrite (so_ok _ _ _ _ SO). discriminate.
Qed.
(* ---- the offsets ---- *)
Lemma N_written c lf gf id n : TI K c lf gf -> sinv (k_sch c) -> (find_stream c id <> None -> 0 <= n /\ l_sent (tled (lf id)) + n <= l_hi (tled (lf id))) -> add_write_offset c id n <> KAbort.
Proof.
  intros T SV OK. unfold add_write_offset. destruct (find_stream c id) as [s|] eqn:F; [|discriminate]. 
  assert (tx_written (st_t s) n <> Abort) as NA.
  { pose proof (tg_step _ _ _ _ _ (OWritten n) (proj1 (EN id)) (T _ _ F)) as G. cbn [texec] in G. intros E. rewrite E in G. apply G; [apply OK; discriminate|apply fits_plain; [apply kind_known|reflexivity|discriminate]|reflexivity]. }
  destruct (tx_written (st_t s) n) as [t|e|]; cbn [obind]; [|discriminate|congruence]. destruct (client_bidi id); [|discriminate].
  destruct (sc_written_s (k_sch (put c id (ss_t s t))) id n (require (ss_t s t)) SV) as (sc & SO & _). unfold sched_do. rewrite (so_ok _ _ _ _ SO). discriminate.
Qed.
Lemma N_ack c lf gf id f x : TI K c lf gf -> (exists n, x = TxSpec.OAddAck n /\ f = (fun t => tx_add_ack t n)) \/ (exists n, x = OAck n /\ f = (fun t => tx_update_ack t n)) -> (find_stream c id <> None -> TxSpec.op_ok (tled (lf id)) x) -> ack_call c id f <> KAbort.
Proof.
  intros T X OK. unfold ack_call. destruct (find_stream c id) as [s|] eqn:F; [|discriminate].
  assert (f (st_t s) <> Abort) as NA.
  { pose proof (tg_step _ _ _ _ _ x (proj1 (EN id)) (T _ _ F)) as G. intros E. destruct X as [(n & -> & ->)|(n & -> & ->)]; cbn [texec] in G; rewrite E in G; (apply G; [apply OK; discriminate|apply fits_plain; [apply kind_known|reflexivity|discriminate]|reflexivity]). }
  destruct (f (st_t s)) as [[t calls]|e|]; congruence.
Qed.
End Write.
