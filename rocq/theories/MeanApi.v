(* What the application has been given for a request stream is the meaning of the bytes received, over histories of
   API calls. *)
From Verif Require Import Base BaseLemmas Chunk ConvModel ConvSpec ConvProofs RdVarint QpackTabModel QpackDecModel QpackDecProofs QpackHistModel QpackHistProofs QpackCutProofs HttpModel HttpSpec BidiModel BidiHist BidiSpec
  BidiProofs BidiRun BidiDec BidiCut ControlModel GapModel PqModel TxModel SchedModel ConnModel ConnCtl ConnStep ConnRx ConnWf ConnDecomp ConnHist ConnRead RecvSpec RecvLog ConnRecv ConnRecvStep ConnRecvHist ConnUni
  RfcQpackSpec RfcStreamSpec IdealSec SecMean MeanStream MeanGrow MeanRx MeanSeen Props_Uni.
Open Scope Z_scope.

Lemma means_nil max H n0 : means max H n0 [] [].
Proof.
  exists [], [], []. split; [constructor|]. split; [|reflexivity]. constructor. intros ty len p (m & A & _). discriminate A.
Qed.
Lemma start_M K req max n0 id H d rej : M max n0 id H (x_st (x_start K req id d rej)) [] [].
Proof.
  destruct rej.
  - apply M_rest; [reflexivity|]. exists [], []. split; [reflexivity|]. apply means_nil.
  - eapply (M_cur _ _ _ _ _ [] [] [] [] [] []); [reflexivity|constructor| |reflexivity]. apply cf_type; [reflexivity|apply proper_nil|reflexivity|reflexivity|reflexivity].
Qed.
Lemma start_GX K req id d0 rej : 0 <= s_cap (ke_set K) -> reach_at K req d0 -> GX (s_cap (ke_set K)) (snd req) id d0 (x_start K req id d0 rej) [] [].
Proof.
  intros C (R & N). pose proof (seen_init (s_cap (ke_set K)) (TxModel.s_blk (ke_set K)) C) as S0. destruct (evolves_seen _ _ _ R S0) as (S1 & _).
  destruct (seen_table _ _ C S1) as (H & I & _ & _ & Z & _). exists H. split; [split; auto|]. split; [lia|]. exists [], []. split; [reflexivity|]. split; [constructor|].
  split; [intros _; destruct rej; reflexivity|apply start_M].
Qed.

(* the bytes of the peer's encoder stream, behind its type *)
Definition encoder_bytes (K : kenv) (h : list kcall) (c : conn) (es : list Z) : Prop :=
  (exists id, peer_stream K h c id 2 /\ es = behind_type (heard id h)) \/ ((forall id, ~ peer_stream K h c id 2) /\ es = []).

Section Api.
Variable K : kenv.
Hypothesis CAP : 0 <= s_cap (ke_set K).
Lemma enc_seen_api h c es : history K h c -> encoder_bytes K h c es -> es = kseen c.
Proof.
  intros H [(id & PS & ->)|(N & ->)].
  - destruct (proj1 (peer_u K h c H id 2) PS) as (P & s & F & _ & U & _). pose proof (se_enc _ _ _ (hist_SE K h c H) id s P F U) as G. cbv beta in G. unfold behind_type. rewrite stype_get, G by (eapply heard_bytes; eauto). reflexivity.
  - symmetry. apply (se_none _ _ _ (hist_SE K h c H)). destruct (k_eopen c) eqn:O; [|reflexivity]. exfalso. destruct (proj1 (flag_peer K h c H 2 (or_intror (or_introl eq_refl))) O) as (id & PS). exact (N id PS).
Qed.
Lemma enc_exists h c : history K h c -> encoder_bytes K h c (kseen c).
Proof.
  intros H. destruct (k_eopen c) eqn:O.
  - destruct (proj1 (flag_peer K h c H 2 (or_intror (or_introl eq_refl))) O) as (id & PS). left. exists id. split; [exact PS|].
    destruct (proj1 (peer_u K h c H id 2) PS) as (P & s & F & _ & U & _). pose proof (se_enc _ _ _ (hist_SE K h c H) id s P F U) as G. cbv beta in G. unfold behind_type. rewrite stype_get, G by (eapply heard_bytes; eauto). reflexivity.
  - right. split; [|apply (se_none _ _ _ (hist_SE K h c H)); exact O]. intros id PS. assert (k_eopen c = true) by (apply (proj2 (flag_peer K h c H 2 (or_intror (or_introl eq_refl)))); eauto). congruence.
Qed.
Lemma dec_seen h c : history K h c -> seen_by (s_cap (ke_set K)) (k_dec c).
Proof.
  intros H. destruct (proj2 (r_dec _ _ _ _ (proj1 (hist_R K CAP h c H))) 0) as (R & _). exact (proj1 (evolves_seen _ _ _ R (seen_init _ _ CAP))).
Qed.
Lemma api_insertions h c es : history K h c -> encoder_bytes K h c es -> exists H, insertions (s_cap (ke_set K)) es H /\ inserted c = zlen H.
Proof.
  intros H E. rewrite (enc_seen_api _ _ _ H E). destruct (seen_table _ _ CAP (dec_seen h c H)) as (T & I & _ & _ & N & _). exists T. split; [exact I|exact N].
Qed.
(* reading the stream goes on: it was neither shut down, nor refused, nor found malformed *)
Definition listens (c : conn) (id : Z) : Prop := exists s, find_stream c id = Some s /\ x_shut (st_x s) = false /\ b_rd (x_st (st_x s)) <> FIgnRest.
Lemma api_means h c id es : history K h c -> client_bidi id = true -> is_open c id = true -> encoder_bytes K h c es ->
  exists H a b, insertions (s_cap (ke_set K)) es H /\ inserted_before id h <= zlen H /\ given id (life id h) = a ++ b /\ means (s_cap (ke_set K)) H (inserted_before id h) a (content (all_shown id (life id h))) /\
    (listens c id -> (forall n, ~ waits_for c id n) -> b = [] /\ means_all (s_cap (ke_set K)) H (inserted_before id h) a (content (all_shown id (life id h)))).
Proof.
  intros HI C O E. rewrite (enc_seen_api _ _ _ HI E). clear es E. unfold is_open in O. destruct (find_stream c id) as [s|] eqn:F; [clear O|discriminate].
  destruct (open_T K CAP h c id s HI C F) as [(E0 & d0 & rej & ops & d1 & _ & _ & R & OK & B & X & RC & E1 & E2) _ _ IR _].
  pose proof (start_GX K (rq_of h id) id d0 rej CAP R) as G0. pose proof (start_inv K (rq_of h id) id d0 rej (reach_ok K _ CAP (proj1 R)) IR) as X0.
  assert (D0 : b_dec (x_st (x_start K (rq_of h id) id d0 rej)) = d0) by (destruct rej; reflexivity). rewrite <- D0 in G0 at 1. apply received_bytes in B.
  pose proof (run_GX _ _ id CAP ops E0 _ [] [] X0 B OK G0) as G. rewrite X in G. cbn [GX_res app] in G. rewrite RC in G. cbn [snd rq_of log_of l_rcv l_evs] in G.
  destruct G as (H & MD & L & HR). change (b_dec (x_st (with_dec (st_x s) d1))) with d1 in MD. destruct (made_grow _ CAP _ _ _ E1 MD) as (Y & MD' & FB).
  apply (RX_grow _ _ _ H Y) in HR; [|exact FB]. assert (L' : inserted_before id h <= zlen (H ++ Y)) by (rewrite zlen_app; pose proof (zlen_nonneg _ Y); lia).
  exists (H ++ Y). destruct HR as (pre & suf & EQ & Bp & SH & HM). destruct HM as [don cur its1 its2 P1 P2 P3 P4|P1 P2].
  - exists pre, suf. split; [exact (proj2 MD')|]. split; [exact L'|]. split; [exact EQ|]. split.
    + exists its1, cur, its2. pose proof P1 as P1'. assert (bytes don /\ bytes cur) as (Bd & Bc) by (apply bytes_app; rewrite <- P1; exact Bp). split; [rewrite P1; pose proof (frames_app _ _ _ _ _ _ cur Bd P2) as Q; exact Q|]. split; [|exact P4].
      eapply curf_part; [exact FB|exact L'|exact Bc|exact P3].
    + intros (s' & F' & S' & _) NW. rewrite F in F'. injection F' as <-. split; [|exists its1, cur, its2; assert (bytes don /\ bytes cur) as (Bd & Bc) by (apply bytes_app; rewrite <- P1; exact Bp); split; [rewrite P1; pose proof (frames_app _ _ _ _ _ _ cur Bd P2) as Q; exact Q|]; split; [eapply curf_part; [exact FB|exact L'|exact Bc|exact P3]|]; split; [exact P4|eapply curf_all; [exact FB|exact L'|exact Bc|exact P3]]]. rewrite (SH S'). change (x_inq (with_dec (st_x s) d1)) with (x_inq (st_x s)).
      rewrite (T_x_inv_q K _ id _ _ _ (open_T K CAP h c id s HI C F)); [reflexivity|]. destruct (b_blk (x_st (st_x s))) eqn:BK; [|reflexivity]. exfalso. eapply NW. exists s. eauto.
  - destruct P2 as (a & b & E3 & E4). exists a, (b ++ suf). split; [exact (proj2 MD')|]. split; [exact L'|]. split; [rewrite EQ, E3, app_assoc; reflexivity|]. split; [exact E4|].
    intros (s' & F' & _ & R') _. rewrite F in F'. injection F' as <-. exfalso. apply R'. exact P1.
Qed.
End Api.
