(* What nghttp3_conn_writev_stream offers, and when *)
From Verif Require Import Base BaseLemmas Chunk ConvModel RdVarint QpackTabModel QpackDecModel HttpModel BidiModel BidiHist ControlModel GapModel PqModel PqProofs PqWeak TxModel SchedModel SchedProofs SchedFair ConnModel ConnCtl ConnStep ConnRx ConnWf ConnDecomp ConnHist ConnSched.
Open Scope Z_scope.

Definition bound (c : conn) (id : Z) : Prop := k_tctl c = Some id \/ k_tenc c = Some id \/ k_tdec c = Some id.
(* only the output of unidirectional streams changes *)
Record keeps (c c' : conn) : Prop := {
  kp_sch : k_sch c' = k_sch c;
  kp_tx : k_tctl c' = k_tctl c /\ k_tenc c' = k_tenc c /\ k_tdec c' = k_tdec c;
  kp_bidi : forall j, client_bidi j = true -> find_stream c' j = find_stream c j;
  kp_str : forall j s', find_stream c' j = Some s' -> exists s t, find_stream c j = Some s /\ s' = ss_t s t }.
Lemma ss_t_eta s : ss_t s (st_t s) = s. Proof. destruct s; reflexivity. Qed.
Lemma keeps_refl c : keeps c c.
Proof. constructor; auto. intros j s F. exists s, (st_t s). rewrite ss_t_eta. auto. Qed.
Lemma keeps_trans a b c : keeps a b -> keeps b c -> keeps a c.
Proof.
  intros [A1 (A2 & A3 & A4) A5 A6] [B1 (B2 & B3 & B4) B5 B6]. constructor; [congruence|repeat split; congruence|intros; rewrite B5, A5; auto|].
  intros j s F. destruct (B6 _ _ F) as (s1 & t & F1 & ->). destruct (A6 _ _ F1) as (s0 & t0 & F0 & ->). exists s0, t. auto.
Qed.
Lemma keeps_put c id s t : find_stream c id = Some s -> client_bidi id = false -> keeps c (put c id (ss_t s t)).
Proof.
  intros F N. constructor; auto.
  - intros j CB. apply find_put_other. intros ->. congruence.
  - intros j s' G. rewrite find_put, F in G. destruct (Z.eqb_spec j id) as [->|NE]; [injection G as <-; eauto|]. exists s', (st_t s'). rewrite ss_t_eta. auto.
Qed.
Lemma keeps_wf K c c' : wf K c -> keeps c c' -> forall id, bound c' id -> local_uni K id = true.
Proof. intros W [_ (A & B & C) _ _] id H. apply (wf_tx _ _ W). unfold bound in H. rewrite A, B, C in H. exact H. Qed.
Lemma keeps_ebufs K es c0 : wf K c0 -> forall c c1, keeps c0 c -> add_ebufs c es = Ok c1 -> keeps c0 c1.
Proof.
  intros W c c1 H. apply (add_ebufs_P (keeps c0)); [|exact H]. intros d q s t e D Q F _. eapply keeps_trans; [exact D|]. apply keeps_put; auto.
  assert (local_uni K q = true) as LU by (eapply keeps_wf; [exact W|exact D|right; left; exact Q]). destruct (client_bidi q) eqn:Z; auto. exfalso. eapply local_not_bidi; eauto.
Qed.
Lemma cw_shape K c0 c id n c1 r : wf K c0 -> keeps c0 c -> conn_writev K c id n = Ok (c1, r) -> exists s t es, find_stream c id = Some s /\ tx_fill (ke_tx K id) (st_t s) = Ok (t, es) /\
  add_ebufs (put c id (ss_t s t)) es = Ok c1 /\
  ((exists i vs fin sq, r = Some (i, vs, fin) /\ stream_uni id = false /\ k_tenc c1 = Some i /\ find_stream c1 i = Some sq /\ is_blocked sq = false /\ writev (st_t sq) n = Ok (vs, fin) /\ vs <> []) \/
   (exists s1 vs fin, find_stream c1 id = Some s1 /\ writev (st_t s1) n = Ok (vs, fin) /\ r = if Nat.eqb (length vs) 0 && negb fin then None else Some (id, vs, fin))).
Proof.
  intros W KP. unfold conn_writev. destruct (find_stream c id) as [s|] eqn:F; [|discriminate]. destruct (tx_fill _ _) as [[t es]| |] eqn:TF; cbn [obind]; try discriminate.
  destruct (add_ebufs _ _) as [c2| |] eqn:AE; cbn [obind]; try discriminate. intros H. exists s, t, es. split; auto. split; auto.
  assert ((match find_stream c2 id with Some s0 => let! (vs, fin) := writev (st_t s0) n in Ok (c2, if Nat.eqb (length vs) 0 && negb fin then None else Some (id, vs, fin)) | None => Abort end = Ok (c1, r)) ->
    add_ebufs (put c id (ss_t s t)) es = Ok c1 /\ exists s1 vs fin, find_stream c1 id = Some s1 /\ writev (st_t s1) n = Ok (vs, fin) /\ r = if Nat.eqb (length vs) 0 && negb fin then None else Some (id, vs, fin)) as L.
  { intros L. destruct (find_stream c2 id) as [s0|] eqn:F2; [|discriminate]. destruct (writev (st_t s0) n) as [[vs fin]| |] eqn:WV; cbn [obind] in L; try discriminate. injection L as <- <-.
    split; [exact AE|]. exists s0, vs, fin. auto. }
  destruct (if stream_uni id then None else k_tenc c2) as [q|] eqn:Q2; cbn [obind] in H; [|destruct (L H); auto].
  assert (stream_uni id = false /\ k_tenc c2 = Some q) as [Q3 Q4] by (destruct (stream_uni id); [discriminate|auto]).
  destruct (find_stream c2 q) as [sq|] eqn:Fq; cbn [obind] in H; [|discriminate]. destruct (is_blocked sq) eqn:IB; cbn [obind] in H; [destruct (L H); auto|].
  destruct (writev (st_t sq) n) as [[vs fin]| |] eqn:WV; cbn [obind] in H; try discriminate. destruct (Nat.eqb (length vs) 0) eqn:LV; [destruct (L H); auto|].
  injection H as <- <-. split; auto. left. exists q, vs, fin, sq. repeat (split; [auto|]). intros ->. discriminate.
Qed.
Definition awake (c : conn) (id : Z) : Prop := exists s, find_stream c id = Some s /\ st_fc s = false /\ st_swr s = false.
Lemma awake_keeps c c' id : keeps c c' -> awake c' id -> awake c id.
Proof. intros KP (s & F & A & B). destruct (kp_str _ _ KP _ _ F) as (s0 & t & F0 & ->). exists s0. auto. Qed.
Lemma blocked_no s : is_blocked s = false -> st_fc s = false /\ st_swr s = false /\ t_rdblk (st_t s) = false.
Proof. unfold is_blocked. intros H. apply orb_false_iff in H as [H H3]. apply orb_false_iff in H as [H1 H2]. auto. Qed.
Lemma try_shape K c0 c w n c1 r : wf K c0 -> keeps c0 c -> (w = k_tctl c \/ w = k_tenc c \/ w = k_tdec c) -> try_uni K c w n = Ok (c1, r) ->
  keeps c0 c1 /\ (forall i vs fin, r = Some (i, vs, fin) -> bound c0 i /\ awake c0 i /\ vs <> []).
Proof.
  intros W KP CR. unfold try_uni. destruct w as [id|]; [|intros [= <- <-]; split; [auto|discriminate]].
  assert (bound c id) as BD by (unfold bound; destruct CR as [C|[C|C]]; auto). assert (local_uni K id = true) as LU by (eapply keeps_wf; eauto).
  destruct (find_stream c id) as [s|] eqn:F; [|discriminate]. destruct (is_blocked s) eqn:IB; [intros [= <- <-]; split; [auto|discriminate]|].
  destruct (conn_writev K c id n) as [[c2 r2]| |] eqn:CW; cbn [obind]; try discriminate. intros [= <- <-].
  destruct (cw_shape _ _ _ _ _ _ _ W KP CW) as (s' & t & es & F' & TF & AE & SH). assert (s' = s) as -> by congruence.
  assert (client_bidi id = false) as NB by (destruct (client_bidi id) eqn:Z; auto; exfalso; eapply local_not_bidi; eauto).
  split; [eapply keeps_ebufs; [exact W| |exact AE]; eapply keeps_trans; [exact KP|apply keeps_put; auto]|].
  intros i vs fin E. destruct r2 as [[[i2 vs2] fin2]|]; [|discriminate]. destruct (Nat.eqb (length vs2) 0) eqn:LV; [discriminate|]. injection E as -> -> ->.
  destruct SH as [(i' & v' & f' & sq & _ & U & _)|(s1 & v' & f' & _ & _ & R)]; [apply local_is_uni in LU; congruence|].
  destruct (_ && _); [discriminate|]. injection R as <- <- <-. apply blocked_no in IB as (A & B & _).
  split; [|split; [eapply awake_keeps; [exact KP|exists s; auto]|intros ->; discriminate]].
  unfold bound in *. destruct (kp_tx _ _ KP) as (E1 & E2 & E3). rewrite E1, E2, E3 in BD. exact BD.
Qed.
Lemma flush_keeps K c0 c c1 : wf K c0 -> keeps c0 c -> flush_decoder c = Ok c1 -> keeps c0 c1.
Proof.
  intros W KP. unfold flush_decoder. destruct (k_tdec c) as [id|] eqn:TD; [|intros [= <-]; auto]. destruct (find_stream c id) as [s|] eqn:F; [|discriminate].
  assert (local_uni K id = true) as LU by (eapply keeps_wf; [exact W|exact KP|right; right; exact TD]).
  destruct (is_blocked s); [intros [= <-]; auto|]. destruct (_ =? 0); [intros [= <-]; auto|]. destruct (write_decoder _ _) as [[d l]| |]; cbn [obind]; try discriminate.
  destruct (write_raw _ _) as [t| |]; cbn [obind]; try discriminate. intros [= <-]. eapply keeps_trans; [exact KP|].
  assert (client_bidi id = false) as NB by (destruct (client_bidi id) eqn:Z; auto; exfalso; eapply local_not_bidi; eauto).
  pose proof (keeps_put c id s t F NB) as [A B C D]. constructor; auto.
Qed.
(* the shape of a call *)
Inductive writev_cases (K : kenv) (c : conn) (n : nat) (c' : conn) : option (Z * list (list Z) * bool) -> Prop :=
| wc_zero : n = O -> c' = c -> writev_cases K c n c' None
| wc_uni id vs fin : bound c id -> awake c id -> vs <> [] -> keeps c c' -> writev_cases K c n c' (Some (id, vs, fin))
| wc_none : n <> O -> keeps c c' -> get_next_tx (k_sch c) = Ok None -> writev_cases K c n c' None
| wc_enc c1 c2 id i s vs fin sch' : keeps c c1 -> get_next_tx (k_sch c) = Ok (Some id) -> bound c i -> awake c i -> vs <> [] ->
    c' = kk_sch c2 sch' -> find_stream c id = Some s -> writev_cases K c n c' (Some (i, vs, fin))
| wc_next c1 c2 id s t es s1 vs fin sch' : keeps c c1 -> get_next_tx (k_sch c) = Ok (Some id) -> find_stream c1 id = Some s -> tx_fill (ke_tx K id) (st_t s) = Ok (t, es) ->
    add_ebufs (put c1 id (ss_t s t)) es = Ok c2 -> find_stream c2 id = Some s1 -> writev (st_t s1) n = Ok (vs, fin) ->
    (if client_bidi id then sc_offered (k_sch c) id (require s1) else Ok (k_sch c)) = Ok sch' -> c' = kk_sch c2 sch' ->
    writev_cases K c n c' (if Nat.eqb (length vs) 0 && negb fin then None else Some (id, vs, fin)).
Lemma writev_shape K c n c' r : wf K c -> SI (fun _ => False) c -> writev_stream K c n = Ok (c', r) -> writev_cases K c n c' r.
Proof.
  intros W I WS. unfold writev_stream in WS. destruct (Nat.eqb_spec n 0) as [->|NZ]; [injection WS as <- <-; constructor; auto|].
  destruct (try_uni K c (k_tctl c) n) as [[c2 r2]| |] eqn:T1; cbn [obind] in WS; try discriminate.
  destruct (try_shape _ _ _ _ _ _ _ W (keeps_refl c) (or_introl eq_refl) T1) as (D1 & O1).
  destruct r2 as [[[i v] f]|]; [injection WS as <- <-; destruct (O1 _ _ _ eq_refl) as (P1 & P2 & P3); apply wc_uni; auto|].
  destruct (flush_decoder c2) as [c3| |] eqn:T2; cbn [obind] in WS; try discriminate. pose proof (flush_keeps _ _ _ _ W D1 T2) as D2.
  destruct (try_uni K c3 (k_tdec c3) n) as [[c4 r4]| |] eqn:T3; cbn [obind] in WS; try discriminate.
  destruct (try_shape _ _ _ _ _ _ _ W D2 (or_intror (or_intror eq_refl)) T3) as (D3 & O3).
  destruct r4 as [[[i v] f]|]; [injection WS as <- <-; destruct (O3 _ _ _ eq_refl) as (P1 & P2 & P3); apply wc_uni; auto|].
  destruct (try_uni K c4 (k_tenc c4) n) as [[c5 r5]| |] eqn:T4; cbn [obind] in WS; try discriminate.
  destruct (try_shape _ _ _ _ _ _ _ W D3 (or_intror (or_introl eq_refl)) T4) as (D4 & O4).
  destruct r5 as [[[i v] f]|]; [injection WS as <- <-; destruct (O4 _ _ _ eq_refl) as (P1 & P2 & P3); apply wc_uni; auto|].
  rewrite (kp_sch _ _ D4) in WS.
  destruct (get_next_tx (k_sch c)) as [[id|]| |] eqn:GN; cbn [obind] in WS; try discriminate; [|injection WS as <- <-; apply wc_none; auto].
  destruct (conn_writev K c5 id n) as [[c6 r6]| |] eqn:CW; cbn [obind] in WS; try discriminate.
  destruct (cw_shape _ _ _ _ _ _ _ W D4 CW) as (s & t & es & F & TF & AE & SH).
  destruct (find_stream c6 id) as [s1|] eqn:F6; [|discriminate]. unfold sched_do in WS. rewrite (add_ebufs_sch _ _ _ AE) in WS. cbn [k_sch put kk_str] in WS. rewrite (kp_sch _ _ D4) in WS.
  destruct (if client_bidi id then sc_offered (k_sch c) id (require s1) else Ok (k_sch c)) as [sch'| |] eqn:SO; cbn [obind] in WS; try discriminate. injection WS as <- <-.
  pose proof (get_next_ok (k_sch c) (proj1 I)) as G. rewrite GN in G. destruct G as [Y _]. destruct (proj1 (proj2 I) _ Y) as (s0 & F0 & CB & _).
  destruct SH as [(i & vs & fin & sq & -> & U & TE & Fq & IB & WV & NV)|(s1' & vs & fin & F1 & WV & ->)].
  - destruct (ebufs_keep _ _ _ AE _ _ Fq) as (sq0 & tq & Fq0 & -> & _). apply blocked_no in IB as (A & B & _).
    assert (k_tenc c6 = k_tenc c5) as TE5 by (revert AE; apply (add_ebufs_P (fun d => k_tenc d = k_tenc c5)); auto).
    assert (bound c i) as BD by (right; left; rewrite <- (proj1 (proj2 (kp_tx _ _ D4))); congruence).
    assert (i <> id) as NI by (intros ->; destruct (wf_tx _ _ W id BD) as [LU _]; eapply local_not_bidi; eauto).
    eapply wc_enc; eauto. rewrite find_put_other in Fq0 by auto. eapply awake_keeps; [exact D4|]. exists sq0. auto.
  - injection F1 as <-. eapply wc_next; eauto.
Qed.

Definition offers (id : Z) (x : kcall) : Prop := exists vs fin, In (KOffer id vs fin) (c_evs x).
Lemma offer_writev K c o c' rv evs : wf K c -> op_ok o -> kstep K c o = KOk c' rv evs -> forall id vs fin, In (KOffer id vs fin) evs -> exists n, o = OWritev n.
Proof.
  intros W O S id vs fin H. destruct (step_decomp _ _ _ _ _ _ W O S) as (acts & D & <- & F & _). unfold seen in H. apply in_concat in H as (l & H1 & H2).
  apply in_map_iff in H1 as (a & <- & Ha). rewrite Forall_forall in F. specialize (F a Ha).
  assert (forall i j n, ~ In (KOffer id vs fin) (map (KStream i) j ++ deferred i n)) as NS.
  { intros i j n Q. apply in_app_iff in Q as [Q|Q]; [apply in_map_iff in Q as (? & Q & _); discriminate|]. unfold deferred in Q. destruct (n =? 0); [destruct Q|destruct Q as [Q|[]]; discriminate]. }
  assert (forall e, ~ (KOffer id vs fin = e /\ exists i cc, e = KStop i cc \/ e = KReset i cc)) as NE by (intros e [<- (i & cc & [Q|Q])]; discriminate).
  assert (forall c0 c1 l0, ksts K c0 l0 c1 -> forall e, In (ASee e) l0 -> exists i cc, e = KStop i cc \/ e = KReset i cc) as SE.
  { clear. induction 1 as [|c0 a c1 l0 c2 T D IH]; intros e Q; [destruct Q|]. destruct Q as [->|Q]; [inversion T; auto|auto]. }
  destruct a; cbn [vis] in H2; try (destruct H2; fail); cbn [allowed allowed0] in F.
  - exfalso. apply in_map_iff in H2 as (? & Q & _); discriminate.
  - exfalso. eapply NS; eauto.
  - destruct H2 as [Q|[]]; discriminate.
  - destruct H2 as [Q|[]]; discriminate.
  - destruct H2 as [Q|[]]; discriminate.
  - exfalso. apply in_app_iff in H2 as [Q|Q]; [unfold deferred in Q; destruct (n =? 0); [destruct Q|destruct Q as [Q|[]]; discriminate]|]. destruct (client_bidi id0); [destruct Q as [Q|[]]; discriminate|destruct Q].
  - exfalso. apply in_map_iff in H2 as (? & Q & _); discriminate.
  - exact F.
  - exfalso. destruct H2 as [Q|[]]. destruct (SE _ _ _ D _ Ha) as (i & cc & [E|E]); congruence.
Qed.
Lemma step_offer K c o c' rv evs id vs fin : wf K c -> SI (fun _ => False) c -> op_ok o -> kstep K c o = KOk c' rv evs -> In (KOffer id vs fin) evs ->
  (bound c id /\ awake c id /\ vs <> []) \/ (client_bidi id = true /\ sched (k_sch c) id = true).
Proof.
  intros W I O S H. destruct (offer_writev _ _ _ _ _ _ W O S _ _ _ H) as [n ->]. cbn [kstep] in S. unfold writev_call in S.
  destruct (writev_stream K c n) as [[c1 r]| |] eqn:WS; try discriminate. pose proof (writev_shape K c n c1 r W I WS) as SH.
  destruct r as [[[i v] f]|]; injection S as <- _ <-; [|destruct H]. destruct H as [[= -> -> ->]|[]].
  inversion SH as [|? ? ? B A V KP| |? c2 id' ? s ? ? sch' KP GN B A V E F|? c2 id' s t es s1 v' f' sch' KP GN F TF AE F6 WV SO E X]; subst.
  - left. auto.
  - left. auto.
  - destruct (Nat.eqb (length v') 0 && negb f'); [discriminate|]. injection X as <- <- <-.
    pose proof (get_next_ok (k_sch c) (proj1 I)) as G. rewrite GN in G. destruct G as [Y _]. destruct (proj1 (proj2 I) _ Y) as (s0 & F0 & CB & _). right. auto.
Qed.
(* a stream taken out of the queues stays out *)
Definition quietA (id : Z) (a : kact) : Prop :=
  match a with ASubmit i _ _ _ | AWake i _ | AWritten i _ | APriority i _ | AUpdate i _ true | AServer i _ => i <> id | _ => True end.
Definition hushed (b : bool) (s : stream) : Prop := t_frq (st_t s) = [] /\ (write_done (st_t s) = true \/ st_swr s = true \/ (b = true /\ st_fc s = true)).
Definition quietB (b : bool) (id : Z) (a : kact) : Prop :=
  match a with ASubmit i _ _ _ => i <> id | AWake i true => b = false \/ i <> id | _ => True end.
Lemma hushed_req b s : hushed b s -> require s = false.
Proof.
  intros [F H]. unfold require. rewrite F. cbn [length Nat.eqb negb andb]. rewrite orb_false_r.
  destruct H as [->|[->|[_ ->]]]; cbn; [reflexivity|apply andb_false_r|]. rewrite andb_false_r. reflexivity.
Qed.
Lemma written_hushed b s t n : tx_written (st_t s) n = Ok t -> hushed b s -> hushed b (ss_t s t).
Proof.
  intros H [F Q]. assert (t_frq t = t_frq (st_t s) /\ (write_done (st_t s) = true -> write_done t = true)) as [A B].
  { unfold tx_written, add_outq_offset in H. set (u := set_sizes (st_t s) (t_unsent (st_t s) - n) (t_off (st_t s))) in *.
    destruct (offset_loop (skipn (t_idx u) (t_outq u)) (t_idx u) n) as [[q i] m] eqn:O. destruct (_ || _); [|discriminate]. injection H as <-. split; [reflexivity|].
    subst u. unfold write_done. cbn [set_outq set_sizes t_frq t_rdblk t_outq t_idx t_unsent] in *. intros D.
    assert (skipn (t_idx (st_t s)) (t_outq (st_t s)) = []) as SK by (apply skipn_all2; apply orb_true_iff in D as [D|D]; [apply Nat.eqb_eq in D; lia|apply Nat.leb_le in D; lia]).
    rewrite SK in O. cbn in O. injection O as <- <- <-. rewrite app_nil_r, firstn_length. apply orb_true_iff in D as [D|D]; apply orb_true_iff; [left; apply Nat.eqb_eq in D; apply Nat.eqb_eq; lia|right; apply Nat.leb_le in D; apply Nat.leb_le; lia]. }
  split; cbn [ss_t st_t st_swr st_fc]; [congruence|]. destruct Q as [Q|[Q|Q]]; auto.
Qed.
Lemma acked_hushed b s t off l : update_ack (st_t s) off = Ok (t, l) -> hushed b s -> hushed b (ss_t s t).
Proof. intros H [F Q]. apply ack_loop_same in H as (A & _ & _ & B); [|reflexivity]. split; cbn [ss_t st_t st_swr st_fc]; rewrite ?A, ?B; auto. Qed.
Section Park.
Context (K : kenv) (id : Z) (CB : client_bidi id = true).
Lemma out_A c a c' Ex : wf K c -> SI Ex c -> kst K c a c' -> quietA id a -> sched (k_sch c) id = false -> sched (k_sch c') id = false.
Proof.
  intros W I H Q U. pose proof I as (A & B & C).
  assert (OTH : forall x o s', sok (k_sch c) x o s' -> x <> id -> sched s' id = false) by (intros x o s' S N; rewrite (sched_oth _ _ _ _ S) by auto; exact U).
  destruct H; cbn [quietA] in Q; try exact U; try (rewrite sch_mid; exact U); try (rewrite sch_rem; exact U).
  - rewrite sch_add. unfold sched, sc_create, set_node. cbn. unfold upd_z. destruct (Z.eqb_spec id id0); [reflexivity|exact U].
  - destruct (sc_priority_s (k_sch c) id0 p (require s) A H4) as (s1 & S & _). pose proof (sok_det _ _ _ _ _ S H5) as <-. eapply OTH; eauto.
  - destruct (sc_priority_s (k_sch c) id0 p (require s) A H2) as (s1 & S & _). pose proof (sok_det _ _ _ _ _ S H4) as <-. eapply OTH; eauto.
  - cbn. rewrite sch_add. unfold sched, sc_create_pri, sc_create, set_node. cbn. unfold upd_z. destruct (Z.eqb_spec id id0); [reflexivity|exact U].
  - destruct (identify_same _ _ _ _ H2) as [E _]. cbn. rewrite E. exact U.
  - pose proof (get_next_ok (k_sch c) A) as G. rewrite H0 in G. destruct G as [Y _]. destruct (B _ Y) as (s0 & _ & CB0 & _). rewrite CB0 in H4.
    destruct (sc_offered_s (k_sch c) id0 (require s1) A) as (s2 & S & _). pose proof (sok_det _ _ _ _ _ S H4) as <-. eapply OTH; [exact S|]. intros ->. congruence.
  - destruct (client_bidi id0); [|injection H1 as <-; exact U]. destruct (sc_written_s (k_sch c) id0 n (require (ss_t s t)) A) as (s2 & S & _). pose proof (sok_det _ _ _ _ _ S H1) as <-. eapply OTH; eauto.
  - destruct (sc_submit_s (k_sch c) id0 (require (ss_t s (tx_submit (st_t s) (TxModel.FHeaders (nva_copy nva) :: (if dr then [TxModel.FData] else [])) fin))) A) as (s2 & S & _). pose proof (sok_det _ _ _ _ _ S H0) as <-. eapply OTH; eauto.
  - destruct (client_bidi id0); [|injection H0 as <-; exact U]. destruct (sc_block_s (k_sch c) id0 A) as (s2 & S & _ & SS). pose proof (sok_det _ _ _ _ _ S H0) as <-.
    destruct (Z.eq_dec id0 id) as [->|N]; [exact SS|eapply OTH; eauto].
  - destruct (client_bidi id0); [|injection H0 as <-; exact U].
    destruct (sc_wake_s (k_sch c) id0 (require (if fc then ss_fc s false else ss_t s (tx_resume (st_t s)))) A) as (s2 & S & _). pose proof (sok_det _ _ _ _ _ S H0) as <-. eapply OTH; eauto.
  - destruct (sc_close_s (k_sch c) id0 A) as (s2 & S & _ & SS). pose proof (sok_det _ _ _ _ _ S H1) as <-. destruct (Z.eq_dec id0 id) as [->|N]; [exact SS|eapply OTH; eauto].
  - assert (pri_valid p) as PV by (apply urg_ok_iff in H2; unfold lvl in H2; split; [lia|]; apply orb_true_iff in H3 as [H3|H3]; apply Z.eqb_eq in H3; auto).
    destruct (sc_priority_s (k_sch c) id0 p (require s) A PV) as (s1 & S & _). pose proof (sok_det _ _ _ _ _ S H4) as <-. eapply OTH; eauto.
Qed.
Definition husht (b : bool) (c : conn) : Prop := sched (k_sch c) id = false /\ forall s, find_stream c id = Some s -> hushed b s.
Lemma out_B b c a c' Ex : wf K c -> SI Ex c -> kst K c a c' -> quietB b id a -> husht b c -> husht b c'.
Proof.
  intros W I H Q [U HS]. pose proof I as (A & B & C).
  assert (PUT : forall i s s' d, find_stream c i = Some s -> k_sch d = k_sch c -> (forall y, find_stream d y = find_stream (put c i s') y) -> (i = id -> hushed b s -> hushed b s') -> husht b d).
  { intros i s s' d F S E G. split; [rewrite S; exact U|]. intros t. rewrite E, find_put, F. destruct (Z.eqb_spec id i) as [->|N]; [intros [= <-]; auto|auto]. }
  assert (UPD : forall i s s' o sch' d, find_stream c i = Some s -> sok (k_sch c) i o sch' -> k_sch d = sch' -> (forall y, find_stream d y = find_stream (put c i s') y) ->
    (i = id -> hushed b s -> sched sch' id = false /\ hushed b s') -> husht b d).
  { intros i s s' o sch' d F S E FF G. destruct (Z.eq_dec i id) as [->|N].
    - destruct (G eq_refl (HS _ F)) as [G1 G2]. split; [rewrite E; exact G1|]. intros t. rewrite FF, find_put, F, Z.eqb_refl. intros [= <-]. exact G2.
    - split; [rewrite E, (sched_oth _ _ _ _ S) by auto; exact U|]. intros t. rewrite FF, find_put_other by auto. apply HS. }
  assert (MID : forall c0 s s0 x i, k_sch c0 = k_sch c -> (forall y, find_stream c0 y = find_stream c y) -> find_stream c i = Some s0 -> st_t s = st_t s0 -> st_fc s = st_fc s0 -> st_swr s = st_swr s0 -> husht b (mid c0 i s x)).
  { intros c0 s s0 x i E1 E2 F T1 T2 T3. split; [rewrite sch_mid, E1; exact U|]. intros t. rewrite (find_mid c0 i s s0) by (rewrite E2; exact F). destruct (Z.eqb_spec id i) as [->|N]; [|rewrite E2; apply HS].
    intros [= <-]. destruct (HS _ F) as [P1 P2]. split; cbn [ss_x st_t st_swr st_fc]; rewrite ?T1, ?T2, ?T3; auto. }
  destruct H; cbn [quietB] in Q; try (split; [exact U|exact HS]).
  - destruct (fresh_tx _ _ _ _ H1) as [TX X]. split.
    + rewrite sch_add. unfold sched, sc_create, set_node. cbn. unfold upd_z. destruct (Z.eqb_spec id id0); [reflexivity|exact U].
    + intros t. rewrite find_add by auto. destruct (Z.eqb_spec id id0); [|apply HS]. intros [= <-]. unfold hushed. rewrite TX. cbn. auto.
  - eapply MID; eauto.
  - eapply MID; eauto.
  - eapply MID; eauto.
  - destruct (sc_priority_s (k_sch c) id0 p (require s) A H4) as (s1 & S & _ & SS). pose proof (sok_det _ _ _ _ _ S H5) as <-.
    eapply (UPD id0 s s _ s1); [exact H|exact S|reflexivity|intros y; rewrite put_same by auto; reflexivity|]. intros -> HH. split; [|exact HH]. pose proof (hushed_req _ _ HH). destruct SS as [SS|[_ SS]]; congruence.
  - destruct (sc_priority_s (k_sch c) id0 p (require s) A H2) as (s1 & S & _ & SS). pose proof (sok_det _ _ _ _ _ S H4) as <-.
    eapply (UPD id0 s (ss_pu s true) _ s1); [exact H|exact S|reflexivity|reflexivity|]. intros -> HH. split; [|exact HH]. pose proof (hushed_req _ _ HH). destruct SS as [SS|[_ SS]]; congruence.
  - split.
    + cbn. rewrite sch_add. unfold sched, sc_create_pri, sc_create, set_node. cbn. unfold upd_z. destruct (Z.eqb_spec id id0); [reflexivity|exact U].
    + intros t. cbv zeta. match goal with |- find_stream (kk_sch ?d _) _ = _ -> _ => change (find_stream d id = Some t -> hushed b t) end. rewrite find_add by auto.
      destruct (Z.eqb_spec id id0); [|apply HS]. intros [= <-]. unfold hushed. cbn. auto.
  - split; [rewrite sch_rem; exact U|]. intros t. rewrite find_rem. destruct (id =? id0); [discriminate|apply HS].
  - eapply (PUT id0 s (ss_u s (UNone rv'))); [exact H|reflexivity|reflexivity|]. intros _ HH. exact HH.
  - destruct (identify_same _ _ _ _ H2) as [E _]. assert (k_str c1 = k_str c /\ k_sch c1 = k_sch c) as [E1 E2] by (rewrite E; split; reflexivity).
    eapply (PUT id0 s (ss_u s u)); [exact H|exact E2| |intros _ HH; exact HH]. intros y. unfold find_stream, put. cbn. rewrite E1. reflexivity.
  - eapply (PUT id0 s (ss_t s t)); [exact H|reflexivity|reflexivity|]. intros ->. apply bidi_uni in CB. congruence.
  - eapply (PUT id0 s (ss_t s (tx_submit (st_t s) [FGoaway g] false))); [exact H0|reflexivity|reflexivity|]. intros ->. destruct (wf_tx _ _ W id (or_introl H)) as [LU _]. exfalso. eapply local_not_bidi; eauto.
  - pose proof (get_next_ok (k_sch c) A) as G. rewrite H0 in G. destruct G as [Y _]. destruct (B _ Y) as (s0 & _ & CB0 & _). rewrite CB0 in H4.
    destruct (sc_offered_s (k_sch c) id0 (require s1) A) as (s2 & S & _). pose proof (sok_det _ _ _ _ _ S H4) as <-. assert (id <> id0) as N by (intros ->; congruence).
    split; [cbn; rewrite (sched_oth _ _ _ _ S) by auto; exact U|]. intros t1 F1. change (find_stream c1 id = Some t1) in F1.
    erewrite ebufs_find in F1; [|exact H2|]; [rewrite find_put_other in F1 by auto; apply HS; exact F1|].
    intros Q2. destruct (wf_tx _ _ W id (or_intror (or_introl Q2))) as [LU _]. eapply local_not_bidi; eauto.
  - destruct (client_bidi id0) eqn:CB0.
    + destruct (sc_written_s (k_sch c) id0 n (require (ss_t s t)) A) as (s2 & S & _ & SS). pose proof (sok_det _ _ _ _ _ S H1) as <-.
      eapply (UPD id0 s (ss_t s t) _ s2); [exact H|exact S|reflexivity|reflexivity|]. intros -> HH. pose proof (written_hushed _ _ _ _ H0 HH) as HH2. split; [|exact HH2].
      pose proof (hushed_req _ _ HH2) as RQ. rewrite RQ in SS. destruct SS as [SS|SS]; exact SS.
    + injection H1 as <-. eapply (PUT id0 s (ss_t s t)); [exact H|reflexivity|reflexivity|congruence].
  - destruct H0 as [off Q2]. eapply (PUT id0 s (ss_t s t)); [exact H|reflexivity|reflexivity|]. intros _. eapply acked_hushed; eauto.
  - destruct (sc_submit_s (k_sch c) id0 (require (ss_t s (tx_submit (st_t s) (TxModel.FHeaders (nva_copy nva) :: (if dr then [TxModel.FData] else [])) fin))) A) as (s2 & S & _). pose proof (sok_det _ _ _ _ _ S H0) as <-.
    eapply UPD; [exact H|exact S|reflexivity|reflexivity|congruence].
  - destruct (client_bidi id0) eqn:CB0.
    + destruct (sc_block_s (k_sch c) id0 A) as (s2 & S & _ & SS). pose proof (sok_det _ _ _ _ _ S H0) as <-.
      eapply UPD; [exact H|exact S|reflexivity|reflexivity|]. intros -> [H1 H2]. split; [exact SS|]. destruct fc; (split; [exact H1|]); cbn; tauto.
    + injection H0 as <-. eapply PUT; [exact H|reflexivity|reflexivity|congruence].
  - assert (id0 = id -> hushed b s -> hushed b (if fc then ss_fc s false else ss_t s (tx_resume (st_t s)))) as HW.
    { intros -> [H1 H2]. destruct fc.
      - destruct Q as [->|Q]; [|congruence]. split; [exact H1|]. cbn. destruct H2 as [H2|[H2|[H2 _]]]; auto; discriminate.
      - split; [exact H1|]. cbn. exact H2. }
    destruct (client_bidi id0) eqn:CB0.
    + destruct (sc_wake_s (k_sch c) id0 (require (if fc then ss_fc s false else ss_t s (tx_resume (st_t s)))) A) as (s2 & S & _ & SS). pose proof (sok_det _ _ _ _ _ S H0) as <-.
      eapply UPD; [exact H|exact S|reflexivity|reflexivity|]. intros -> HH. split; [|exact (HW eq_refl HH)]. rewrite SS, (hushed_req _ _ (HW eq_refl HH)), U. reflexivity.
    + injection H0 as <-. eapply PUT; [exact H|reflexivity|reflexivity|congruence].
  - destruct (sc_close_s (k_sch c) id0 A) as (s2 & S & _ & SS). pose proof (sok_det _ _ _ _ _ S H1) as <-.
    eapply UPD; [exact H|exact S|reflexivity|reflexivity|]. intros -> HH. split; [exact SS|]. cbv zeta. destruct (b_blk _); exact HH.
  - eapply (PUT id0 s (ss_x s (x_shut_rd (st_x s)))); [exact H|reflexivity|reflexivity|intros _ HH; exact HH].
  - assert (pri_valid p) as PV by (apply urg_ok_iff in H2; unfold lvl in H2; split; [lia|]; apply orb_true_iff in H3 as [H3|H3]; apply Z.eqb_eq in H3; auto).
    destruct (sc_priority_s (k_sch c) id0 p (require s) A PV) as (s1 & S & _ & SS). pose proof (sok_det _ _ _ _ _ S H4) as <-.
    eapply (UPD id0 s (ss_sp s true) _ s1); [exact H|exact S|reflexivity|reflexivity|]. intros -> HH. split; [|exact HH]. pose proof (hushed_req _ _ HH). destruct SS as [SS|[_ SS]]; congruence.
Qed.
End Park.
Lemma ksts_with K Cl Ex (P : conn -> Prop) (Q : kact -> Prop) : (forall c a c', wf K c -> SI Ex c -> kst K c a c' -> Q a -> P c -> P c') ->
  forall c l c', ksts K c l c' -> wf K c -> SI Ex c -> CLc Cl c -> Forall (tidyA Cl Ex) l -> Forall Q l -> P c -> P c'.
Proof.
  intros ST c l c' H. induction H as [c|c a c1 l c' T D IH]; intros W I L F FQ HP; auto. inversion F; subst. inversion FQ; subst.
  destruct (kst_SI K Cl Ex c a c1 W I L H1 T) as [I1 L1]. apply IH; auto; [eapply kst_wf; eauto|]. eapply ST; eauto.
Qed.
Lemma h_last K h x c : history K (h ++ [x]) c -> exists c0, history K h c0 /\ op_ok (ConnHist.c_op x) /\ kstep K c0 (ConnHist.c_op x) = KOk c (ConnHist.c_rv x) (c_evs x) /\ c_post x = c.
Proof.
  intros H. inversion H as [E|h0 c0 o c' rv evs H1 O S E]; [destruct h; discriminate|]. apply app_inj_tail in E as [-> <-]. subst. exists c0. auto.
Qed.
Lemma step_with K h x c0 c (P : conn -> Prop) (Q : kact -> Prop) : (forall Ex c a c', wf K c -> SI Ex c -> kst K c a c' -> Q a -> P c -> P c') ->
  history K (h ++ [x]) c -> tidy (h ++ [x]) -> history K h c0 -> kstep K c0 (ConnHist.c_op x) = KOk c (ConnHist.c_rv x) (c_evs x) -> op_ok (ConnHist.c_op x) ->
  (forall acts, decomp K c0 (ConnHist.c_op x) c (c_evs x) acts -> Forall Q acts) -> P c0 -> P c.
Proof.
  intros ST H T H0 S O FQ HP. destruct (hist_SI K h c0 H0 (tidy_app _ _ T)) as [I L]. pose proof (h_wf _ _ _ H0) as W.
  destruct (step_decomp _ _ _ _ _ _ W O S) as (acts & D). pose proof (h_last _ _ _ _ H) as (_ & _ & _ & _ & E).
  assert (tidy_call h (mk_call (ConnHist.c_op x) (ConnHist.c_rv x) (c_evs x) c)) as TC by (rewrite <- E; pose proof (tidy_last _ _ T); destruct x; assumption).
  pose proof (step_tidy K h c0 _ c _ _ acts S TC D) as TA. pose proof (FQ acts D) as FA. destruct D as (D & _).
  eapply (ksts_with K (fun id => closing id h \/ exists code, ConnHist.c_op x = OClose id code) (fun id => exists code, ConnHist.c_op x = OClose id code) P Q (ST _) c0 acts c D W); [|intros id s F X; left; eapply L; eauto|exact TA|exact FA|exact HP].
  destruct I as (A & B & C). split; [auto|]. split; [auto|]. intros id s F1 F2 F3 F4 F5 F6. destruct (C id s F1 F2 F3 F4 F5 F6) as [Y|[]]. auto.
Qed.
(* from a call on, while every call is quiet *)
Lemma since K h x (P : conn -> Prop) (Q : kact -> Prop) (R : kcall -> Prop) : (forall Ex c a c', wf K c -> SI Ex c -> kst K c a c' -> Q a -> P c -> P c') ->
  (forall c c' y acts, R y -> kstep K c (ConnHist.c_op y) = KOk c' (ConnHist.c_rv y) (c_evs y) -> decomp K c (ConnHist.c_op y) c' (c_evs y) acts -> Forall Q acts) ->
  (forall c, history K (h ++ [x]) c -> tidy (h ++ [x]) -> P c) ->
  forall g c, history K (h ++ x :: g) c -> tidy (h ++ x :: g) -> (forall y, In y g -> R y) -> P c.
Proof.
  intros ST FQ BASE g. induction g as [|y g IH] using rev_ind; intros c H T A; [apply BASE; auto|].
  assert (h ++ x :: g ++ [y] = (h ++ x :: g) ++ [y]) as E by (rewrite <- app_assoc; reflexivity). rewrite E in H, T.
  destruct (h_last _ _ _ _ H) as (c0 & H0 & O & S & _). eapply (step_with K (h ++ x :: g) y c0 c P Q ST); eauto.
  - intros acts D. eapply FQ; eauto. apply A. apply in_app_iff. right. left. reflexivity.
  - apply IH; [exact H0|eapply tidy_app; eauto|]. intros z Z. apply A. apply in_app_iff. auto.
Qed.
(* ... so at each of those calls *)
Lemma in_split_hist K (h g : list kcall) x c y : history K (h ++ x :: g) c -> In y g -> exists g1 g2 c0, g = g1 ++ y :: g2 /\ history K (h ++ x :: g1) c0 /\ op_ok (ConnHist.c_op y) /\ kstep K c0 (ConnHist.c_op y) = KOk (c_post y) (ConnHist.c_rv y) (c_evs y).
Proof.
  intros H Y. apply in_split in Y as (g1 & g2 & ->). destruct (history_split K _ _ H (h ++ x :: g1) y g2) as (c0 & H0 & O & S); [rewrite <- app_assoc; reflexivity|]. exists g1, g2, c0. auto.
Qed.
Lemma not_stirs_quiet K id y c c' acts : ~ stirs id y -> decomp K c (ConnHist.c_op y) c' (c_evs y) acts -> Forall (quietA id) acts.
Proof.
  intros N (D & E & F & P). apply Forall_forall. intros a Ha. rewrite Forall_forall in F. specialize (F a Ha). unfold stirs in N.
  destruct a; cbn [quietA]; auto; cbn [allowed allowed0] in F.
  - intros ->. apply N. right. right. exists p. apply P. exact Ha.
  - destruct known; auto. intros ->. apply N. right. left. exists p. rewrite <- E. eapply in_seen; [exact Ha|]. left. reflexivity.
  - intros ->. apply N. left. rewrite F. reflexivity.
  - intros ->. apply N. left. destruct F as [->|[->|(_ & [->| ->])]]; reflexivity.
  - intros ->. apply N. left. destruct fc; rewrite F; reflexivity.
  - intros ->. apply N. left. rewrite F. reflexivity.
Qed.
(* a submission on the stream *)
Definition submits (id : Z) (x : kcall) : Prop := match ConnHist.c_op x with OInfo i _ | OResponse i _ _ | OTrailers i _ | ORequest i _ _ => i = id | _ => False end.
Lemma not_submits_quiet K id b y c c' acts : ~ submits id y -> (b = true -> ConnHist.c_op y <> OUnblock id) -> decomp K c (ConnHist.c_op y) c' (c_evs y) acts -> Forall (quietB b id) acts.
Proof.
  intros N U (D & E & F & P). apply Forall_forall. intros a Ha. rewrite Forall_forall in F. specialize (F a Ha). unfold submits in N.
  destruct a; cbn [quietB]; auto; cbn [allowed allowed0] in F.
  - intros ->. apply N. destruct F as [->|[->|(_ & [->| ->])]]; reflexivity.
  - destruct fc; auto. destruct b; [right|left; reflexivity]. intros ->. apply U; auto.
Qed.
Definition shuts (b : bool) (id : Z) (x : kcall) : Prop := ConnHist.c_op x = if b then OBlock id else OShutWrite id.
Lemma block_out K h x c (b : bool) id : client_bidi id = true -> history K (h ++ [x]) c -> tidy (h ++ [x]) -> shuts b id x ->
  sched (k_sch c) id = false /\ forall s, find_stream c id = Some s -> (if b then st_fc s else st_swr s) = true.
Proof.
  intros CB H T X. unfold shuts in X. destruct (hist_SI K _ _ H T) as [I _]. destruct (h_last _ _ _ _ H) as (c0 & H0 & O & S & _).
  destruct (hist_SI K h c0 H0 (tidy_app _ _ T)) as [I0 _]. rewrite X in S.
  assert (block_with c0 id (fun s => if b then ss_fc s true else ss_swr s true) = KOk c (ConnHist.c_rv x) (c_evs x)) as S1 by (destruct b; exact S). clear S.
  unfold block_with in S1. destruct (find_stream c0 id) as [s|] eqn:F.
  - apply lift_ok in S1 as (S & _). rewrite CB in S. unfold sched_do in S. destruct (sc_block_s (k_sch c0) id (proj1 I0)) as (s2 & SO & _ & SS). cbn [k_sch put kk_str] in S. rewrite (so_ok _ _ _ _ SO) in S. injection S as <-.
    split; [exact SS|]. intros t. match goal with |- find_stream (kk_sch ?d _) _ = _ -> _ => change (find_stream d id = Some t -> (if b then st_fc t else st_swr t) = true) end. rewrite (find_put_same c0 id s) by auto. intros [= <-]. destruct b; reflexivity.
  - injection S1 as <- _ _. split; [|congruence]. destruct (sched (k_sch c0) id) eqn:Y; auto. destruct (proj1 (proj2 I0) _ Y) as (? & Q & _). congruence.
Qed.
Lemma bidi_not_bound K c id : wf K c -> client_bidi id = true -> bound c id -> False.
Proof. intros W CB B. destruct (wf_tx _ _ W id B) as [LU _]. eapply local_not_bidi; eauto. Qed.
Theorem blocked_not_offered K h x g c b id : history K (h ++ x :: g) c -> tidy (h ++ x :: g) -> client_bidi id = true -> shuts b id x ->
  (forall y, In y g -> ~ stirs id y) -> forall y, In y g -> ~ offers id y.
Proof.
  intros H T CB X N y Y (vs & fin & OF). destruct (in_split_hist K h g x c y H Y) as (g1 & g2 & c0 & -> & H0 & O & S).
  assert (tidy (h ++ x :: g1)) as T0 by (apply (tidy_app _ (y :: g2)); rewrite <- app_assoc; exact T).
  assert (sched (k_sch c0) id = false) as U.
  { apply (since K h x (fun c => sched (k_sch c) id = false) (quietA id) (fun y => ~ stirs id y)) with (g := g1); auto.
    - intros Ex d a d' W I K1 Q U. eapply out_A; eauto.
    - intros d d' z acts R S1 D. eapply not_stirs_quiet; eauto.
    - intros d HD TD. eapply (block_out K h x d b id); eauto.
    - intros z Z. apply N. apply in_app_iff. auto. }
  pose proof (h_wf _ _ _ H0) as W. destruct (hist_SI K _ _ H0 T0) as [I _].
  destruct (step_offer K c0 _ _ _ _ id vs fin W I O S OF) as [(B & _)|(_ & Y1)]; [eapply bidi_not_bound; eauto|congruence].
Qed.
Theorem drained_not_offered K h x g c b id : history K (h ++ x :: g) c -> tidy (h ++ x :: g) -> client_bidi id = true -> shuts b id x ->
  (forall s, find_stream (c_post x) id = Some s -> t_frq (st_t s) = []) ->
  (forall y, In y g -> ~ submits id y /\ (b = true -> ConnHist.c_op y <> OUnblock id)) -> forall y, In y g -> ~ offers id y.
Proof.
  intros H T CB X FR N y Y (vs & fin & OF). destruct (in_split_hist K h g x c y H Y) as (g1 & g2 & c0 & -> & H0 & O & S).
  assert (tidy (h ++ x :: g1)) as T0 by (apply (tidy_app _ (y :: g2)); rewrite <- app_assoc; exact T).
  assert (husht id b c0) as [U _].
  { apply (since K h x (husht id b) (quietB b id) (fun y => ~ submits id y /\ (b = true -> ConnHist.c_op y <> OUnblock id))) with (g := g1); auto.
    - intros Ex d a d' W I K1 Q U. eapply (out_B K id CB b); eauto.
    - intros d d' z acts [R1 R2] S1 D. eapply not_submits_quiet; eauto.
    - intros d HD TD. destruct (block_out K h x d b id CB HD TD X) as [B1 B2]. split; [exact B1|]. intros s F. destruct (h_last _ _ _ _ HD) as (_ & _ & _ & _ & E). rewrite <- E in F.
      split; [apply FR; exact F|]. rewrite E in F. specialize (B2 s F). destruct b; auto.
    - intros z Z. apply N. apply in_app_iff. auto. }
  pose proof (h_wf _ _ _ H0) as W. destruct (hist_SI K _ _ H0 T0) as [I _].
  destruct (step_offer K c0 _ _ _ _ id vs fin W I O S OF) as [(B & _)|(_ & Y1)]; [eapply bidi_not_bound; eauto|congruence].
Qed.
(* unidirectional streams *)
Definition localC (K : kenv) (c : conn) : Prop := forall j s, find_stream c j = Some s -> local_uni K j = true -> critical (st_u s).
Definition stopped (K : kenv) (b : bool) (id : Z) (c : conn) : Prop := localC K c /\ exists s, find_stream c id = Some s /\ (if b then st_fc s else st_swr s) = true.
Lemma kst_local K c a c' : wf K c -> localC K c -> kst K c a c' -> localC K c' /\
  forall id s, local_uni K id = true -> find_stream c id = Some s -> exists s', find_stream c' id = Some s' /\ (st_swr s = true -> st_swr s' = true) /\ (a <> AWake id true -> st_fc s = true -> st_fc s' = true).
Proof.
  intros W LC H.
  assert (PUT : forall i s s' d, find_stream c i = Some s -> (forall y, find_stream d y = find_stream (put c i s') y) -> (local_uni K i = true -> critical (st_u s) -> critical (st_u s')) ->
    (st_swr s = true -> st_swr s' = true) -> (a <> AWake i true -> st_fc s = true -> st_fc s' = true) -> localC K d /\
    forall id s, local_uni K id = true -> find_stream c id = Some s -> exists s', find_stream d id = Some s' /\ (st_swr s = true -> st_swr s' = true) /\ (a <> AWake id true -> st_fc s = true -> st_fc s' = true)).
  { intros i s s' d F E C1 C2 C3. split.
    - intros j t. rewrite E, find_put, F. destruct (Z.eqb_spec j i) as [->|N]; [intros [= <-] L; apply C1; auto; eapply LC; eauto|apply LC].
    - intros j t L G. rewrite E, find_put, F. destruct (Z.eqb_spec j i) as [->|N]; [|eauto]. rewrite F in G. injection G as <-. eauto. }
  assert (SAME : forall d, (forall y, find_stream d y = find_stream c y) -> localC K d /\
    forall id s, local_uni K id = true -> find_stream c id = Some s -> exists s', find_stream d id = Some s' /\ (st_swr s = true -> st_swr s' = true) /\ (a <> AWake id true -> st_fc s = true -> st_fc s' = true)).
  { intros d E. split; [intros j t; rewrite E; apply LC|]. intros j t L G. rewrite E. eauto. }
  assert (ADD : forall i s d, find_stream c i = None -> (forall y, find_stream d y = find_stream (add_stream K c i s) y) -> (local_uni K i = true -> critical (st_u s)) -> localC K d /\
    forall id s, local_uni K id = true -> find_stream c id = Some s -> exists s', find_stream d id = Some s' /\ (st_swr s = true -> st_swr s' = true) /\ (a <> AWake id true -> st_fc s = true -> st_fc s' = true)).
  { intros i s d F E C1. split.
    - intros j t. rewrite E, find_add by auto. destruct (Z.eqb_spec j i) as [->|N]; [intros [= <-]; auto|apply LC].
    - intros j t L G. rewrite E, find_add by auto. destruct (Z.eqb_spec j i) as [->|N]; [congruence|eauto]. }
  assert (MID : forall c0 s s0 x i, (forall y, find_stream c0 y = find_stream c y) -> find_stream c i = Some s0 -> st_u s = st_u s0 -> st_fc s = st_fc s0 -> st_swr s = st_swr s0 -> localC K (mid c0 i s x) /\
    forall id s1, local_uni K id = true -> find_stream c id = Some s1 -> exists s', find_stream (mid c0 i s x) id = Some s' /\ (st_swr s1 = true -> st_swr s' = true) /\ (a <> AWake id true -> st_fc s1 = true -> st_fc s' = true)).
  { intros c0 s s0 x i E F U1 U2 U3. eapply (PUT i s0 (ss_x s x)); [exact F| |cbn; rewrite U1; auto|cbn; rewrite U3; auto|cbn; rewrite U2; auto].
    intros y. rewrite (find_mid c0 i s s0) by (rewrite E; exact F). rewrite find_put, F, E. reflexivity. }
  destruct H; try (apply SAME; reflexivity).
  - eapply (ADD id s); [exact H|reflexivity|]. intros L. destruct H1 as [[SB _]|[[P _]|[(_ & _ & u & C & ->)|(_ & CB & _)]]]; [|exfalso; eapply local_not_peer; eauto|exact C|exfalso; eapply local_not_bidi; eauto].
    unfold is_server_bidi in SB. apply andb_true_iff in SB as [_ SB]. exfalso. eapply local_not_bidi; eauto.
  - eapply (MID c s s); auto.
  - eapply (MID (kk_blk c q) (ss_x s (unblocked c s)) s); auto.
  - eapply (MID (kk_blk c q) (ss_x s (unblocked c s)) s); auto.
  - eapply (PUT id s (ss_pu s true)); [exact H|reflexivity|auto|auto|auto].
  - eapply (ADD id); [exact H|reflexivity|]. intros L. exfalso. eapply local_not_bidi; eauto.
  - split.
    + intros j t. rewrite find_rem. destruct (j =? id); [discriminate|apply LC].
    + intros j t L G. rewrite find_rem. destruct (Z.eqb_spec j id) as [->|N]; [|eauto]. exfalso. rewrite H in G. injection G as <-. pose proof (LC _ _ H L) as C. unfold critical in C.
      destruct H1 as [CB|[U|[P _]]]; [eapply local_not_bidi; eauto|rewrite U in C; destruct C as [C|[C|C]]; discriminate|eapply local_not_peer; eauto].
  - eapply (PUT id s); [exact H|reflexivity| |auto|auto]. intros L. exfalso. eapply local_not_peer; eauto.
  - destruct (identify_same _ _ _ _ H2) as [E _]. eapply (PUT id s (ss_u s u)); [exact H| | |auto|auto]; [|intros L; exfalso; eapply local_not_peer; eauto].
    intros y. unfold find_stream, put. cbn. rewrite E. reflexivity.
  - eapply (PUT id s (ss_t s t)); [exact H|reflexivity|auto|auto|auto].
  - eapply (PUT id s); [exact H0|reflexivity|auto|auto|auto].
  - assert (forall j t0, find_stream (kk_sch c1 sch') j = Some t0 -> exists t1 tt, find_stream c j = Some t1 /\ t0 = ss_t t1 tt) as BACK.
    { intros j t0 G. change (find_stream c1 j = Some t0) in G. destruct (ebufs_keep _ _ _ H2 _ _ G) as (s0 & tt & F0 & -> & _). rewrite find_put, H in F0.
      destruct (Z.eqb_spec j id) as [->|N]; [injection F0 as <-; exists s, tt; auto|eauto]. }
    split; [intros j t0 G L; destruct (BACK _ _ G) as (t1 & tt & F1 & ->); eapply (LC _ _ F1 L)|]. intros j t1 L G.
    assert (exists t2, find_stream c1 j = Some t2) as [t2 G2].
    { revert H2. apply (add_ebufs_P (fun d => exists t2, find_stream d j = Some t2)); [|rewrite find_put, H; destruct (j =? id); eauto].
      intros d q s0 t0 e [t2 P] _ F0 _. rewrite find_put, F0. destruct (j =? q); eauto. }
    destruct (BACK j t2 G2) as (t3 & tt & F3 & ->). rewrite G in F3. injection F3 as <-. exists (ss_t t1 tt). auto.
  - eapply (PUT id s (ss_t s t)); [exact H|reflexivity|auto|auto|auto].
  - eapply (PUT id s (ss_t s t)); [exact H|reflexivity|auto|auto|auto].
  - eapply (PUT id s); [exact H|reflexivity|auto|auto|auto].
  - eapply (PUT id s); [exact H|reflexivity| | |]; destruct fc; auto.
  - eapply (PUT id s); [exact H|reflexivity| | |]; destruct fc; auto; congruence.
  - eapply (PUT id s); [exact H|reflexivity| | |]; cbv zeta; destruct (b_blk _); auto.
  - eapply (PUT id s (ss_x s (x_shut_rd (st_x s)))); [exact H|reflexivity|auto|auto|auto].
  - eapply (PUT id s (ss_sp s true)); [exact H|reflexivity|auto|auto|auto].
Qed.
Lemma hist_local K h c : history K h c -> localC K c.
Proof.
  intros H. revert h c H. apply (hist_inv K (fun _ c => localC K c)); [intros j s F; discriminate|]. intros h c o c' rv evs H W O IH S.
  destruct (step_decomp _ _ _ _ _ _ W O S) as (acts & D & _). clear S H. induction D as [|c a c1 l c' T D IHD]; auto. apply IHD; [eapply kst_wf; eauto|eapply kst_local; eauto].
Qed.
Theorem uni_not_offered K h x g c b id : history K (h ++ x :: g) c -> tidy (h ++ x :: g) -> local_uni K id = true -> is_open (c_post x) id = true -> shuts b id x ->
  (b = true -> forall y, In y g -> ConnHist.c_op y <> OUnblock id) -> forall y, In y g -> ~ offers id y.
Proof.
  intros H T LU OP X N y Y (vs & fin & OF). destruct (in_split_hist K h g x c y H Y) as (g1 & g2 & c0 & -> & H0 & O & S).
  assert (tidy (h ++ x :: g1)) as T0 by (apply (tidy_app _ (y :: g2)); rewrite <- app_assoc; exact T).
  assert (stopped K b id c0) as (_ & s & F & Z).
  { apply (since K h x (stopped K b id) (fun a => b = true -> a <> AWake id true) (fun y => b = true -> ConnHist.c_op y <> OUnblock id)) with (g := g1); auto.
    - intros Ex d a d' W I K1 Q (LC & s & F & Z). destruct (kst_local K d a d' W LC K1) as [LC' KK]. split; [exact LC'|]. destruct (KK id s LU F) as (s' & F' & A & B). exists s'. split; [exact F'|]. destruct b; auto.
    - intros d d' z acts R S1 (D & _ & FA & _). apply Forall_forall. intros a Ha B ->. rewrite Forall_forall in FA. specialize (FA _ Ha). cbn in FA. apply (R B FA).
    - intros d HD TD. split; [eapply hist_local; eauto|]. destruct (h_last _ _ _ _ HD) as (d0 & _ & _ & S1 & E). rewrite E in OP. unfold shuts in X. rewrite X in S1.
      assert (block_with d0 id (fun s => if b then ss_fc s true else ss_swr s true) = KOk d (ConnHist.c_rv x) (c_evs x)) as S2 by (destruct b; exact S1). clear S1. unfold block_with in S2.
      destruct (find_stream d0 id) as [s|] eqn:F; [|injection S2 as <- _ _; unfold is_open in OP; rewrite F in OP; discriminate].
      apply lift_ok in S2 as (S2 & _). assert (client_bidi id = false) as NB by (destruct (client_bidi id) eqn:Q; auto; exfalso; eapply local_not_bidi; eauto). rewrite NB in S2. injection S2 as <-.
      eexists. split; [eapply find_put_same; eauto|]. destruct b; reflexivity.
    - intros z Z B. apply N; auto. apply in_app_iff. auto. }
  pose proof (h_wf _ _ _ H0) as W. destruct (hist_SI K _ _ H0 T0) as [I _].
  destruct (step_offer K c0 _ _ _ _ id vs fin W I O S OF) as [(_ & (s1 & F1 & A & B) & _)|(CB & _)]; [|eapply local_not_bidi; eauto].
  rewrite F in F1. injection F1 as <-. destruct b; congruence.
Qed.
