(* What the encoder stream carries and what reaches the other side *)
From Verif Require Import Base BaseLemmas ConvModel ConvSpec ConvProofs QpackIntSpec QpackTabModel QpackDynSpec QpackDecModel QpackEncModel QpackEncSpec HttpSpec HttpModel BidiModel ControlModel TxModel TxSpec TxProofs TxRefine TxFill TxTrace SchedModel
  ConnModel ConnStep ConnWf ConnDecomp ConnHist ConnKind ConnRecvHist ConnUni RecvSpec SendSpec ConnTx TxGhost SendWire ConnSend ConnSend2 SafeWrite SendApi RfcQpackSpec RfcStreamSpec MeanSeen MeanApi MeanListen EncRfc E2eSpec E2e Props_Uni EncStreamSpec EncStream.
Open Scope Z_scope.

Section Sent.
Variable K : kenv.
Hypothesis EF : env_fine K.
(* the stream that carries instructions is the one opened for it *)
Lemma hist_tenc h c q : history K h c -> stype q h = Some 2 -> k_tenc c = Some q.
Proof.
  revert h c. apply (hist_inv K (fun h c => stype q h = Some 2 -> k_tenc c = Some q)); [discriminate|]. intros h c o c' rv evs H W OK IH S. unfold stype. rewrite life_snoc. unfold is_open. cbn [c_post].
  destruct (find_stream c' q) as [s'|] eqn:F'; [|discriminate]. destruct (life q h) as [|x l] eqn:L.
  - cbn [app ConnHist.c_op]. intros E. assert (find_stream c q = None) as F. { destruct (find_stream c q) as [s|] eqn:F; [|reflexivity]. exfalso. apply (life_open K h c q H); [unfold is_open; rewrite F; reflexivity|exact L]. }
    destruct o; try discriminate E; cbn [opened_as] in E; [destruct (_ =? q); discriminate E|]. destruct (Z.eqb_spec eid q) as [-> |N]; [|destruct (did =? q); discriminate E].
    cbn [kstep] in S. unfold bind_qpack in S. destruct (negb _); [discriminate|]. destruct (k_tenc c) eqn:TE; [injection S as <- _ _; congruence|]. destruct (k_tdec c); [injection S as <- _ _; congruence|].
    apply lift_ok in S as (S & _). apply obind_ok in S as (c1 & S1 & S). apply obind_ok in S as (c2 & S2 & S). injection S as <-. apply open_uni_inv in S2 as (_ & t & _ & _ & TX & _). injection TX as _ T _. cbn [kk_tx k_tenc] in *. exact T.
  - cbn [app]. intros E. unfold stype in IH. rewrite L in IH. specialize (IH E). destruct (step_tenc K _ _ _ _ _ W OK S) as [-> |(T & _)]; [exact IH|congruence].
Qed.
(* the whole of it *)
Definition enc_stream (h : list kcall) : list Z := 2 :: concat (map (instr_of K) (encodings K h)).
Theorem enc_carries h c q : history K h c -> sending_ok K h -> stype q h = Some 2 -> offered_from (enc_stream h) (slog K q h) /\ l_hi (tled (slog K q h)) <= zlen (enc_stream h).
Proof.
  intros H SO ST. destruct (hist_EI K EF h c H SO) as (gf & [G EB _ _ _]). pose proof (hist_tenc h c q H ST) as TQ. destruct (wf_tx _ _ (h_wf K h c H) q (or_intror (or_introl TQ))) as (_ & s & F & _).
  destruct G as (TI & _ & KS & _). pose proof (TI _ _ F) as (tr & a & C & R & V & LW & SH & GH). rewrite (KS _ _ F), ST in SH.
  pose proof (shaped_instr _ _ _ C SH) as W. rewrite GH, <- (EB _ TQ) in W. fold (enc_stream h) in W. assert (ledger_of tr = tled (slog K q h)) as LG by (rewrite ledger_tvis, V; reflexivity). split.
  - intros pre vs fin post EL. destruct (tvis_split tr pre (TOffer vs fin) post) as (tr1 & x & tr2 & -> & V1 & V2 & _); [congruence|]. apply tv1_offer in V2 as (n & es & ->).
    rewrite <- V1, <- ledger_tvis, <- W. eapply calls_offers; [exact C|]. exists n, es, tr2. reflexivity.
  - rewrite <- LG, <- W. unfold untag, zlen. rewrite map_length. apply R.
Qed.
Theorem enc_wire h c q : history K h c -> sending_ok K h -> stype q h = Some 2 -> exists rest, enc_stream h = wire (slog K q h) ++ rest.
Proof.
  intros H SO ST. destruct (enc_carries h c q H SO ST) as (OF & HI). destruct (stype_local K EF h c q 2 H SO ST) as (_ & _ & s & F).
  unfold wire. rewrite (wire_upto (enc_stream h) _ OF); [|exact (good_bounds _ _ _ _ (hist_sending K EF h c q s H SO F))|exact HI]. cbn [fst]. exists (from (l_hi (tled (slog K q h))) (enc_stream h)). symmetry. apply firstn_skipn.
Qed.
Theorem enc_none h c : history K h c -> sending_ok K h -> (forall q, stype q h <> Some 2) -> encodings K h = [].
Proof.
  intros H SO N. destruct (hist_EI K EF h c H SO) as (gf & [G _ EN _ _]). apply EN. destruct (k_tenc c) as [q|] eqn:TQ; [|reflexivity]. exfalso. apply (N q).
  destruct (wf_tx _ _ (h_wf K h c H) q (or_intror (or_introl TQ))) as (_ & s & F & _). destruct G as (_ & _ & KS & _). rewrite <- (KS _ _ F). exact (DI_enc K c q s (hist_DI K h c H) TQ F).
Qed.
Theorem enc_sections h c : history K h c -> sending_ok K h -> Forall (fun e => client_bidi (fst (fst e)) = true /\ exists p r b, answer_to K e = Ok (p, r, b)) (encodings K h) /\
  forall id, is_open c id = true -> (made c id <= length (sections (submitted (slog K id h))))%nat /\ exists old, of_stream id (encodings K h) = old ++ first_sections K id (made c id) h.
Proof.
  intros H SO. destruct (hist_EI K EF h c H SO) as (gf & [G _ _ EO E1]). split; [exact EO|]. intros id O. unfold is_open in O. destruct (find_stream c id) as [s|] eqn:F; [|discriminate]. split; [|apply E1; congruence].
  destruct (kind_made K h c gf id s G F) as (ns & -> & (L & _) & M). rewrite M, app_length, L. lia.
Qed.
(* the sections begun on the wire are those that have been encoded *)
Theorem enc_says h c id s : history K h c -> sending_ok K h -> find_stream c id = Some s -> stype id h = None ->
  exists wt l rest open j fs, offered_from wt (slog K id h) /\ l_hi (tled (slog K id h)) <= zlen wt /\ says (ke_tx K id) l open (made c id) j (map fst fs) /\ frames_of wt fs /\ submitted (slog K id h) = l ++ rest /\ length (sections l) = made c id.
Proof.
  intros H SO F ST. destruct (hist_sends K EF h c id s H SO F) as (wt & rest & op & j & D). rewrite ST in D. destruct (sd_frames _ _ _ _ _ _ _ _ D (or_introl eq_refl)) as (l & k & fs & w1 & SY & EW & FF & SB). cbn [preamble app] in EW. subst w1.
  pose proof (sd_made _ _ _ _ _ _ _ _ D (or_introl eq_refl)) as MD. rewrite SB, sections_app, app_length in MD. pose proof (says_count _ _ _ _ _ _ SY) as CN.
  assert (length (sections l) = made c id) as LM by (unfold made; rewrite F; lia). exists (untag wt), l, rest, op, j, fs. rewrite <- LM, <- CN. split; [apply D|]. split; [destruct (sd_led _ _ _ _ _ _ _ _ D); unfold untag, zlen in *; rewrite map_length; lia|]. auto.
Qed.
(* an encoder history behind the connection *)
Lemma follows_bytes tr h : follows tr K h -> enc_bytes tr = concat (map (instr_of K) (encodings K h)).
Proof.
  unfold follows. generalize (encodings K h). induction tr as [|(o & r) tr IH]; intros l F; [cbn in F; inversion F; reflexivity|]. cbn [filter encoded snd] in F.
  destruct r; try (apply IH; exact F). inversion F as [|e ? l' ? (p & x & b & rc & A & E) F']; subst. cbn [map concat]. injection E as _ -> -> ->. unfold instr_of at 1. rewrite A. cbn [enc_bytes]. f_equal. apply IH. exact F'.
Qed.
Lemma follows_replays tr h c id : history K h c -> sending_ok K h -> is_open c id = true -> follows tr K h -> replays tr id (ke_tx K id) (sections_made K c id h).
Proof.
  intros H SO O F k nva p r e NE TE. destruct (enc_sections h c H SO) as (_ & X). destruct (X id O) as (LE & old & E).
  assert (k < made c id)%nat as L. { assert (k < length (sections_made K c id h))%nat by (apply nth_error_Some; congruence). unfold sections_made in *. rewrite firstn_length in *. lia. }
  assert (nth_section K id k h = nva) as EN. { unfold nth_section. apply nth_error_nth. unfold sections_made in NE. rewrite <- (firstn_skipn (made c id) (sections (submitted (slog K id h)))). apply nth_error_front. exact NE. }
  assert (In (id, k, nva) (encodings K h)) as I. { assert (In (id, k, nva) (of_stream id (encodings K h))) as I; [|apply filter_In in I; tauto]. rewrite E. apply in_or_app. right. unfold first_sections. apply in_map_iff. exists k. rewrite EN. split; [reflexivity|]. apply in_seq. lia. }
  unfold follows in F. apply in_split in I as (l1 & l2 & EQ). rewrite EQ in F. apply Forall2_app_inv_l in F as (t1 & t2 & _ & F & ET). inversion F as [|? x ? t2' HS _ Q1 Q2]. destruct HS as (p' & r' & b & ric & A & HX).
  unfold answer_to in A. cbn [fst snd] in A. rewrite TE in A. injection A as <- <- <-. exists e, ric. rewrite <- Q2, HX in ET. cbn [fst snd] in ET.
  assert (In (EEncode id (map same_nv nva), ErSection (p ++ r) e ric) (filter encoded tr)) as J by (rewrite ET; apply in_or_app; right; left; reflexivity). apply filter_In in J. tauto.
Qed.
End Sent.

(* ---- both ends ---- *)
Definition reached (K1 : kenv) (h1 : list kcall) (K2 : kenv) (h2 : list kcall) (c2 : conn) : Prop :=
  forall q, peer_stream K2 h2 c2 q 2 -> stype q h1 = Some 2 /\ exists more, wire (slog K1 q h1) = heard q h2 ++ more.
Lemma reached_bytes K1 h1 c1 K2 h2 c2 tr : env_fine K1 -> history K1 h1 c1 -> sending_ok K1 h1 -> follows tr K1 h1 -> 0 <= s_cap (ke_set K2) -> history K2 h2 c2 -> reached K1 h1 K2 h2 c2 ->
  exists es es', encoder_bytes K2 h2 c2 es /\ enc_bytes tr = es ++ es'.
Proof.
  intros EF H SO F CAP H2 R. pose proof (enc_exists K2 h2 c2 H2) as X. exists (kseen c2). rewrite (follows_bytes _ _ _ F). destruct X as [(q & PS & E)|(N & E)].
  - destruct (R q PS) as (ST & more & W). destruct (enc_wire K1 EF h1 c1 q H SO ST) as (rest & EW). rewrite W, <- app_assoc in EW. unfold enc_stream in EW. destruct PS as (PU & PF & PT).
    exists (more ++ rest). split; [left; exists q; split; [split; auto|exact E]|].
    destruct (heard q h2) as [|b l] eqn:HQ; [discriminate PT|]. cbn [app] in EW. injection EW as <- EW. rewrite EW, E. reflexivity.
  - exists (concat (map (instr_of K1) (encodings K1 h1))). split; [right; split; [exact N|exact E]|]. rewrite E. reflexivity.
Qed.
