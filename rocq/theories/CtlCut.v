(* A refused frame on the control stream that arrives in pieces *)
From Verif Require Import Base BaseLemmas Chunk Chunk2 ConvModel ConvSpec ConvProofs RdVarint QpackTabModel QpackDecModel HttpModel TxModel BidiModel BidiHist ControlModel ControlSpec ControlProofs ControlTrace ControlFrame ConnModel ConnCtl ConnWf ConnStep ConnHist ConnRead ConnUni Props_Uni SafeMax CtlApiSpec CtlApi CtlTold CtlErr CtlNext.
Open Scope Z_scope.

Lemma ideal_fits E f : forall s p busy s' ev, c_inv E s -> bytes p -> (busy = true -> c_ce s) -> fits s -> run_fuel (c_step true E) f s p busy = ROk s' ev -> no_long_value ev -> fits s'.
Proof.
  induction f as [|f IH]; intros s p busy s' ev I B BC F R NL.
  - destruct p, busy; try discriminate. injection R as <- _. exact F.
  - assert (D : (p = [] /\ busy = false) \/ (p <> [] \/ busy = true)) by (destruct p; [destruct busy; auto|right; left; discriminate]).
    destruct D as [[-> ->]|D]; [injection R as <- _; exact F|]. rewrite rf_turn in R by exact D. unfold turn in R.
    assert (RN : runnable c_ce s p) by (destruct D; [left|right]; auto). pose proof (step_ok_all E s p I B RN) as OK.
    destruct (c_step true E s p) as [s1 r1 b1 e1|s1 e1| | |] eqn:S1; try discriminate.
    + destruct OK as (O1 & O2 & O3 & O4 & _). destruct (run_fuel (c_step true E) f s1 r1 b1) as [s2 e2| | |] eqn:R1; cbn [rev_] in R; try discriminate. injection R as <- <-.
      apply Forall_app in NL as [NL1 NL2]. pose proof (step_fits E s p s1 r1 b1 e1 I F S1 NL1) as F1. eapply IH; [exact O1|exact O2|exact O4|exact F1|exact R1|exact NL2].
    + injection R as <- _. destruct p; [|eapply step_more_fits; eauto; discriminate].
      destruct RN as [RN|RN]; [congruence|]. unfold c_ce in RN. unfold c_step in S1. rewrite RN in S1. unfold c_ign in S1.
      destruct (_ =? 0) in S1; [discriminate|]. injection S1 as <- _. intros H. discriminate.
Qed.
(* ---- specification: the shutdown callbacks and the priorities a peer's frames asked for ---- *)
Definition told_of (evs : list cev) : list cev := filter (fun e => match e with CvShutdown _ | CvPriority _ _ => true | _ => false end) evs.
Lemma told_of_callbacks evs : told_of (ctl_callbacks evs) = told_of evs.
Proof. induction evs as [|x evs IH]; [reflexivity|]. unfold told_of, ctl_callbacks in *. destruct x; cbn [filter]; rewrite ?IH; reflexivity. Qed.
Lemma told_only sv pp m g n bs cbs g' n' rest : ctl_told sv pp m g n bs cbs g' n' rest -> told_of cbs = cbs.
Proof.
  induction 1 as [|g n p ty payload cbs g1 n1 bs evs g' n' rest FR CF T IH]; [reflexivity|]. unfold told_of in *. rewrite filter_app, IH. f_equal. revert CF. unfold ctl_frame. cbv zeta.
  repeat match goal with |- context [match ?x with _ => _ end] => destruct x; try discriminate end; intros [= <- _ _]; reflexivity.
Qed.
Lemma told_none evs : shutdowns_of evs = [] -> (forall id p, ~ In (CvPriority id p) evs) -> told_of evs = [].
Proof.
  induction evs as [|x evs IH]; [reflexivity|]. intros S P. destruct x; cbn in *; try discriminate; try (apply IH; [exact S|intros i q X; apply (P i q); auto]). destruct (P id p). auto.
Qed.
Section Cut.
Variable K : kenv.
Theorem api_refused_cut h c id p ty payload tl cbs g' n' r src q ty' payload' tl' e : history K h c -> limit_is K h (stream_limit h) -> (ke_server K = true -> no_long_value (control_events h)) ->
  peer_stream K h c id 0 -> behind_type (heard id h) = p ++ tl -> rfc_frame p = Some (ty, payload, []) ->
  ctl_told (ke_server K) (parse_priority (ke_sf K) (mk_pri 3 0)) (stream_limit h) (2 ^ 62) 0 tl cbs g' n' r ->
  bytes src -> src <> [] -> r ++ src = q ++ tl' -> rfc_frame q = Some (ty', payload', []) ->
  ctl_frame (ke_server K) (parse_priority (ke_sf K) (mk_pri 3 0)) (stream_limit h) g' n' ty' payload' = Some (CtlErr e) ->
  match kstep K c (ORead id src false) with
  | KDead e' evs => e' = e /\ ctl_callbacks (control_evs evs) = []
  | KAbort => ke_server K = true
  | KOk _ _ _ => False
  end.
Proof.
  intros H L NL PS BT FR T BS NS CUT FQ CF. set (n := stream_limit h) in *.
  destruct (api_ideal K h c n (p ++ tl) H L ltac:(left; exists id; auto) NL) as [B R].
  destruct (told_first (env K n) (k_ctl c) (control_events h) p ty payload tl B R NL FR) as (_ & l & r0 & e1 & s1 & e2 & _ & _ & _ & F4 & F5 & _ & _ & _ & _ & _ & A1 & A2 & A3 & A4 & A5 & A6).
  apply Forall_app in B as [_ B2].
  assert (SH : short (env K n) e2) by (intros SV; specialize (NL SV); rewrite F4 in NL; apply Forall_app in NL; tauto).
  destruct (told_run (env K n) _ _ _ _ _ _ _ T s1 (k_ctl c) e2 A1 A2 A3 A4 A5 A6 B2 F5 SH) as (f1 & s & f2 & -> & K1 & K2 & BR & K4 & K5 & K6 & K7 & K8 & I).
  destruct (short_app _ _ _ SH) as [_ SH2]. apply ifeed_cons in K2 as (t1 & ev & x2 & Q1 & Q2 & ->). cbn [feed] in Q2. injection Q2 as -> <-. rewrite app_nil_r in SH2.
  rewrite <- K7, <- K8 in CF.
  assert (BQ : bytes (q ++ tl')) by (rewrite <- CUT; apply Forall_app; auto). apply Forall_app in BQ as [BQ BT'].
  (* the frame in one piece *)
  pose proof (frame_err (env K n) s q ty' payload' _ K4 K5 K6 BQ FQ (long_frame q ty' payload' s BQ FQ)) as FE.
  change (ce_server (env K n)) with (ke_server K) in FE. change (ce_sf (env K n)) with (ke_sf K) in FE. change (ce_max (env K n)) with n in FE. rewrite CF in FE.
  destruct FE as (s' & ev' & E1 & E2 & E3).
  pose proof (ideal_of_real (env K n) (S (measure 3 c_rank s q)) s q false I BQ ltac:(discriminate) (frame_fits s K4)) as IR. cbv zeta in IR. rewrite E1 in IR. destruct (IR E3 ltac:(discriminate)) as [IR1 _].
  (* the pieces *)
  pose proof (run_app (c_step true (env K n)) 3 c_rank (c_inv (env K n)) c_ce (step_ok_all (env K n)) s q tl' false I BQ BT' ltac:(discriminate)) as RA1.
  unfold run at 2 in RA1. rewrite IR1 in RA1.
  pose proof (run_app (c_step true (env K n)) 3 c_rank (c_inv (env K n)) c_ce (step_ok_all (env K n)) s r src false I BR BS ltac:(discriminate)) as RA2.
  rewrite Q1, CUT, RA1 in RA2.
  pose proof (irun_inv (env K n) s r (k_ctl c) ev I BR Q1) as I'.
  destruct (run (c_step true (env K n)) 3 c_rank (k_ctl c) src false) as [| |e0 s0 ev2|] eqn:RI; cbn [rev_] in RA2; try discriminate. injection RA2 as <- <- E0.
  assert (RR : run (c_step false (env K n)) 3 c_rank (k_ctl c) src false = RErr e s' ev2 \/ (run (c_step false (env K n)) 3 c_rank (k_ctl c) src false = RAbort /\ ke_server K = true)).
  { destruct (ke_server K) eqn:SV.
    - destruct (run (c_step false (env K n)) 3 c_rank (k_ctl c) src false) as [| | |] eqn:RR; [| | |right; auto]; left; rewrite <- RR;
        (destruct (ideal_eq (env K n) (S (measure 3 c_rank (k_ctl c) src)) (k_ctl c) src false I' BS ltac:(discriminate)) as [Q _];
          [eapply ideal_fits; [exact I|exact BR| |apply frame_fits; exact K4|exact Q1|apply SH2; exact SV]; discriminate
          |unfold run in RI; rewrite RI; cbn [evs_]; rewrite E0 in E3; apply Forall_app in E3; tauto
          |unfold run in RI; rewrite RI; discriminate
          |unfold run in RR; rewrite RR; discriminate
          |unfold run in *; congruence]).
    - left. unfold run in *. rewrite (client_run (env K n) _ SV (k_ctl c) src false I' BS ltac:(discriminate)). exact RI. }
  rewrite (ctl_call K h c id src H PS NS). unfold read_control_stream. rewrite (hist_limit K h c H). fold n. change (mk_cenv (ke_server K) n (ke_sf K)) with (env K n). unfold read_control.
  destruct RR as [-> |[-> SV]]; [|exact SV]. split; [reflexivity|]. rewrite ctl_evs_ctl. rewrite E0, callbacks_app in E2. apply app_eq_nil in E2. tauto.
Qed.
(* the first frame, in pieces *)
Theorem api_first_refused_cut h c id src q ty payload tl : history K h c -> limit_is K h (stream_limit h) -> (ke_server K = true -> no_long_value (control_events h)) ->
  peer_stream K h c id 0 -> bytes src -> src <> [] -> behind_type (heard id h) ++ src = q ++ tl -> rfc_frame q = Some (ty, payload, []) -> ty <> SETTINGS ->
  match kstep K c (ORead id src false) with
  | KDead e evs => e = ERR_H3_MISSING_SETTINGS /\ control_evs evs = []
  | KAbort => ke_server K = true
  | KOk _ _ _ => False
  end.
Proof.
  intros H L NL PS BS NS CUT FQ N. set (n := stream_limit h) in *. set (r := behind_type (heard id h)) in *.
  destruct (api_ideal K h c n r H L ltac:(left; exists id; auto) NL) as [BR R].
  assert (Q1 : run (c_step true (env K n)) 3 c_rank cst_init r false = ROk (k_ctl c) (control_events h)).
  { cbn [feed] in R. destruct (run (c_step true (env K n)) 3 c_rank cst_init r false) as [s1 e1| | |]; cbn [seq_res rev_] in R; try discriminate. rewrite app_nil_r in R. exact R. }
  assert (BQ : bytes (q ++ tl)) by (rewrite <- CUT; apply Forall_app; auto). apply Forall_app in BQ as [BQ BT].
  destruct (frame_parts _ _ _ BQ FQ) as (p1 & G1 & G2 & BP & LN).
  assert (R1 : run_fuel (c_step false (env K n)) (S (measure 3 c_rank cst_init q)) cst_init q false = RErr ERR_H3_MISSING_SETTINGS cst_init []).
  { rewrite (head_run (env K n) cst_init q ty p1 (zlen payload) payload _ ltac:(split; reflexivity) BQ G1 G2) by (unfold measure; lia).
    unfold c_frame_start. cbn [c_seen c_ty cst_init negb andb]. change FRAME_SETTINGS with SETTINGS. apply Z.eqb_neq in N. rewrite N. cbn [negb]. reflexivity. }
  pose proof (ideal_of_real (env K n) (S (measure 3 c_rank cst_init q)) cst_init q false (c_inv_init _) BQ ltac:(discriminate) ltac:(intros X; discriminate X)) as IR. cbv zeta in IR. rewrite R1 in IR. destruct (IR ltac:(constructor) ltac:(discriminate)) as [IR1 _].
  pose proof (run_app (c_step true (env K n)) 3 c_rank (c_inv (env K n)) c_ce (step_ok_all (env K n)) cst_init q tl false (c_inv_init _) BQ BT ltac:(discriminate)) as RA1.
  unfold run at 2 in RA1. rewrite IR1 in RA1.
  pose proof (run_app (c_step true (env K n)) 3 c_rank (c_inv (env K n)) c_ce (step_ok_all (env K n)) cst_init r src false (c_inv_init _) BR BS ltac:(discriminate)) as RA2.
  rewrite Q1, CUT, RA1 in RA2.
  pose proof (irun_inv (env K n) cst_init r (k_ctl c) _ (c_inv_init _) BR Q1) as I'.
  destruct (run (c_step true (env K n)) 3 c_rank (k_ctl c) src false) as [| |e0 s0 ev2|] eqn:RI; cbn [rev_] in RA2; try discriminate. injection RA2 as <- <- E0.
  symmetry in E0. apply app_eq_nil in E0 as [E0 ->].
  assert (RR : run (c_step false (env K n)) 3 c_rank (k_ctl c) src false = RErr ERR_H3_MISSING_SETTINGS cst_init [] \/ (run (c_step false (env K n)) 3 c_rank (k_ctl c) src false = RAbort /\ ke_server K = true)).
  { destruct (ke_server K) eqn:SV.
    - destruct (run (c_step false (env K n)) 3 c_rank (k_ctl c) src false) as [| | |] eqn:RR; [| | |right; auto]; left; rewrite <- RR;
        (destruct (ideal_eq (env K n) (S (measure 3 c_rank (k_ctl c) src)) (k_ctl c) src false I' BS ltac:(discriminate)) as [Q _];
          [eapply ideal_fits; [apply c_inv_init|exact BR| |intros X; discriminate X|exact Q1|apply NL; reflexivity]; discriminate
          |unfold run in RI; rewrite RI; constructor
          |unfold run in RI; rewrite RI; discriminate
          |unfold run in RR; rewrite RR; discriminate
          |unfold run in *; congruence]).
    - left. unfold run in *. rewrite (client_run (env K n) _ SV (k_ctl c) src false I' BS ltac:(discriminate)). exact RI. }
  rewrite (ctl_call K h c id src H PS NS). unfold read_control_stream. rewrite (hist_limit K h c H). fold n. change (mk_cenv (ke_server K) n (ke_sf K)) with (env K n). unfold read_control.
  destruct RR as [-> |[-> SV]]; [|exact SV]. split; reflexivity.
Qed.
(* nothing behind the series of complete frames: exactly the callbacks of the table *)
Theorem api_whole h c n id p ty payload tl cbs g' n' : history K h c -> limit_is K h n -> (ke_server K = true -> no_long_value (control_events h)) ->
  peer_stream K h c id 0 -> behind_type (heard id h) = p ++ tl -> rfc_frame p = Some (ty, payload, []) ->
  ctl_told (ke_server K) (parse_priority (ke_sf K) (mk_pri 3 0)) n (2 ^ 62) 0 tl cbs g' n' [] -> told_of (control_events h) = cbs.
Proof.
  intros H L NL PS BT FR T. destruct (api_ideal K h c n (p ++ tl) H L ltac:(left; exists id; auto) NL) as [B R].
  destruct (told_first (env K n) (k_ctl c) (control_events h) p ty payload tl B R NL FR) as (_ & l & r0 & e1 & s1 & e2 & _ & _ & _ & F4 & F5 & _ & _ & _ & F9 & F10 & A1 & A2 & A3 & A4 & A5 & A6).
  apply Forall_app in B as [_ B2].
  assert (SH : short (env K n) e2) by (intros SV; specialize (NL SV); rewrite F4 in NL; apply Forall_app in NL; tauto).
  destruct (told_run (env K n) _ _ _ _ _ _ _ T s1 (k_ctl c) e2 A1 A2 A3 A4 A5 A6 B2 F5 SH) as (f1 & s & f2 & -> & K1 & K2 & _).
  cbn [feed] in K2. rewrite run_nil in K2. cbn [seq_res rev_] in K2. injection K2 as _ <-.
  rewrite F4. unfold told_of. rewrite filter_app. fold (told_of e1) (told_of (f1 ++ [])). rewrite (told_none e1 F9 F10), app_nil_r, <- told_of_callbacks, K1. exact (told_only _ _ _ _ _ _ _ _ _ _ T).
Qed.
End Cut.
