(* A failing call shows nothing of a stream whose reading was shut down *)
From Verif Require Import Base BaseLemmas Chunk ConvModel RdVarint QpackTabModel QpackDecModel HttpModel BidiModel BidiHist ControlModel GapModel PqModel PqProofs TxModel SchedModel SchedFair
  ConnModel ConnCtl ConnStep ConnRx ConnWf ConnDecomp ConnHist ConnRecv ConnRecvStep RecvSpec ShutRdSpec ShutRd ConnDead.
Open Scope Z_scope.

Section D.
Variables (K : kenv) (id : Z).
Hypothesis CB : client_bidi id = true.
Lemma acts_SQ c l c' : wf K c -> ksts K c l c' -> Forall (s_act id) l -> SQ id c -> SQ id c'.
Proof.
  intros W H. induction H as [c|c a c1 l c' T H IH]; intros F L; [exact L|]. inversion F as [|? ? A F']; subst. destruct (kst_SQ K id CB c a c1 W T A L) as [L1 _].
  apply IH; auto. eapply kst_wf; eauto.
Qed.
Lemma dead_shut c o e evs : wf K c -> op_ok o -> kstep K c o = KDead e evs -> SO id c -> shown id evs = [].
Proof.
  intros W OK S SH. assert (ND : match o with ORead _ _ _ => False | _ => True end -> shown id evs = []) by (intros N; rewrite (dead_silent K c o e evs N S); reflexivity).
  destruct o; try (apply ND; exact Logic.I). clear ND. cbn [kstep] in S. destruct (Z.eq_dec id0 id) as [->|N].
  { exfalso. assert (RG : 0 <= id <= max_varint). { unfold read_stream in S. destruct ((id <? 0) || (max_varint <? id)) eqn:R; [discriminate S|]. apply orb_false_iff in R. lia. }
    destruct (shut_reads K id CB c src fin SH RG) as (c' & X). cbn [kstep] in X. rewrite X in S. discriminate S. }
  destruct (dd_read K id0 src fin c e evs W S) as (c1 & e1 & e2 & (acts & D1 & D2 & D3 & _) & -> & L).
  assert (A : Forall (s_act id) acts). { rewrite Forall_forall in *. intros a Ha s f ev ->. specialize (D3 _ Ha). cbn in D3. congruence. }
  assert (Q : SQ id c). { destruct SH as (s0 & F0 & X0). intros s F. left. congruence. }
  rewrite shown_app, <- D2, (acts_silent K id CB c acts c1 W D1 A Q). pose proof (acts_SQ c acts c1 W D1 A Q) as Q1. assert (W1 : wf K c1) by (eapply ksts_wf; eauto). cbn [app]. clear D1 D2 D3 A Q S.
  destruct L as [|ev _|i s sr f ev E _ F R|i s q ev _ PE PT F _ PP R].
  - reflexivity.
  - apply shown_control.
  - rewrite shown_stream. injection E as -> _ _. destruct (Z.eqb_spec i id); [contradiction|reflexivity].
  - rewrite shown_stream. destruct (Z.eqb_spec i id) as [->|]; [|reflexivity]. destruct (Q1 s F) as [SHx|B]; [|rewrite (top_blk K id CB c1 id s W1 PE PT F) in B; discriminate B].
    pose proof (resume_shut false (benv_of K (kk_blk c1 q) s) (unblocked c1 s) SHx) as X. destruct (resume _ _ _); cbn [x_result] in R; try contradiction; try discriminate R; congruence.
Qed.
End D.
