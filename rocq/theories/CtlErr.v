(* A complete frame that is refused, and what follows it *)
From Verif Require Import Base BaseLemmas ConvModel ConvSpec ConvProofs RdVarint HttpModel Chunk Chunk2 ControlModel ControlSpec ControlProofs ControlTrace ControlFrame.
Open Scope Z_scope.

Section Err.
Variable E : cenv.
Let g := c_step false E.
Ltac ung := match goal with |- context [match g ?a ?b with _ => _ end] => change (g a b) with (c_step false E a b) end; unfold c_step.
Ltac er := eexists; eexists; split; [reflexivity|split; [reflexivity|repeat constructor; try (apply Z.ltb_ge; assumption)]].
(* as frame_one, of a frame that is refused: the lengths reported for PRIORITY_UPDATE are those of short values *)
Lemma frame_err s p ty payload f :
  at_frame s -> c_seen s = true -> c_buf s = [] -> bytes p -> rfc_frame p = Some (ty, payload, []) -> (6 <= f)%nat ->
  match ctl_frame (ce_server E) (parse_priority (ce_sf E) (mk_pri 3 0)) (ce_max E) (c_goaway s) (c_pushes s) ty payload with
  | Some (CtlErr e) => exists s' ev, run_fuel g f s p false = RErr e s' ev /\ ctl_callbacks ev = [] /\ no_long_value ev
  | _ => True
  end.
Proof.
  intros A SE BU B FR F. destruct (frame_parts _ _ _ B FR) as (p1 & G1 & G2 & BP & _).
  unfold g; rewrite (head_run E s p ty p1 (zlen payload) payload f A B G1 G2) by lia.
  unfold ctl_frame, c_frame_start. fold g. cbv zeta. cbn [c_ty c_seen c_rd c_id c_set c_goaway c_closing c_pushes c_buf]. rewrite SE. cbn [negb andb].
  rewrite <- c_refused_iff. change FRAME_SETTINGS with SETTINGS. change FRAME_GOAWAY with GOAWAY. change FRAME_MAX_PUSH_ID with MAX_PUSH_ID.
  change FRAME_PRIORITY_UPDATE_PUSH_ID with PRIORITY_UPDATE_PUSH. change FRAME_PRIORITY_UPDATE with PRIORITY_UPDATE.
  destruct (Z.eqb_spec ty SETTINGS) as [->|TS]; cbn [orb]; [er|].
  assert (P0 : payload <> [] -> (zlen payload =? 0) = false) by (intros N; apply Z.eqb_neq; pose proof (zpos _ _ N); lia).
  assert (F1 : exists f1, (f - 2 = S (S f1))%nat /\ (2 <= f1)%nat) by (exists (f - 4)%nat; lia). destruct F1 as (f1 & -> & F1).
  assert (VN : rfc_varint [] = None) by reflexivity.
  destruct (Z.eqb_spec ty GOAWAY) as [->|TG].
  { change (c_refused GOAWAY) with false. change (GOAWAY =? PRIORITY_UPDATE_PUSH) with false. cbv iota.
    destruct payload as [|z payload']; [er|]. set (payload := z :: payload') in *.
    rewrite P0 by discriminate. cbn [rev_ app]. rewrite rf_turn by (left; discriminate). unfold turn. ung. cbn [c_rd c_rv c_left c_go]. rewrite fr_whole by (auto; discriminate).
    rewrite <- get_varint_rfc by auto. destruct (get_varint payload) as [[v r]|] eqn:GV; [|er].
    destruct r; [|exact Logic.I]. cbn [c_goaway c_go]. rewrite client_bidi_iff. destruct (negb (ce_server E) && negb (v mod 4 =? 0)); [rewrite orb_true_r; er|].
    rewrite orb_false_r. destruct (c_goaway s <? v); [er|]. exact Logic.I. }
  destruct (Z.eqb_spec ty MAX_PUSH_ID) as [->|TM].
  { change (c_refused MAX_PUSH_ID) with false. change (MAX_PUSH_ID =? PRIORITY_UPDATE_PUSH) with false. cbv iota.
    destruct (ce_server E); cbn [negb]; [|er].
    destruct payload as [|z payload']; [er|]. set (payload := z :: payload') in *.
    rewrite P0 by discriminate. cbn [rev_ app]. rewrite rf_turn by (left; discriminate). unfold turn. ung. cbn [c_rd c_rv c_left c_go]. rewrite fr_whole by (auto; discriminate).
    rewrite <- get_varint_rfc by auto. destruct (get_varint payload) as [[v r]|] eqn:GV; [|er].
    destruct r; [|exact Logic.I]. cbn [c_pushes c_go]. destruct (v + 1 <? c_pushes s); [er|]. exact Logic.I. }
  destruct (Z.eqb_spec ty PRIORITY_UPDATE) as [->|TP].
  { change (c_refused PRIORITY_UPDATE) with false. change (PRIORITY_UPDATE =? PRIORITY_UPDATE_PUSH) with false. cbv iota.
    destruct (ce_server E) eqn:SV; cbn [negb]; [|er].
    destruct payload as [|z payload']; [er|]. set (payload := z :: payload') in *.
    rewrite P0 by discriminate. cbn [rev_ app]. rewrite rf_turn by (left; discriminate). unfold turn. ung. cbn [c_rd c_rv c_left c_go]. rewrite fr_whole by (auto; discriminate).
    rewrite <- get_varint_rfc by auto. destruct (get_varint payload) as [[v r]|] eqn:GV; [|er].
    rewrite SV. cbn [negb]. rewrite prio_allowed_iff.
    destruct (gv_suffix _ _ _ BP GV) as (BR & _ & _).
    destruct r as [|y r'].
    - cbn [zlen length]. change (8 <? 0) with false. cbv iota. change (Z.of_nat 0 =? 0) with true. cbv iota. destruct (_ && _); [|er]. exact Logic.I.
    - set (r := y :: r') in *. pose proof (zpos _ r ltac:(discriminate)) as Z0. assert (ZN : (zlen r =? 0) = false) by (apply Z.eqb_neq; lia). rewrite ZN. cbn [andb]. cbn [rev_ app].
      assert (ST : forall st, c_rd st = CPrio -> c_left st = zlen r -> c_buf st = [] -> c_id st = v -> g st r =
        if 8 <? zlen r then SGo (c_go st CIgn (c_rv st) (zlen r) v) r true []
        else match parse_priority (ce_sf E) (mk_pri 3 0) r with
             | None => c_fail ERR_H3_GENERAL_PROTOCOL_ERROR []
             | Some pr => if prio_allowed E v then SGo (c_reset (c_with_buf st [])) [] false [CvPriority v pr] else c_fail ERR_H3_ID_ERROR []
             end).
      { intros st S1 S2 S3 S4. unfold g, c_step. rewrite S1. unfold c_prio. rewrite S2, S3, S4, Z.min_id. destruct (Z.leb_spec (zlen r) 0); [lia|].
        rewrite zlen_nil, !Z.eqb_refl. cbn [andb]. unfold pri_bufsize. destruct (8 <? zlen r); [reflexivity|].
        rewrite zlen_length, firstn_all, skipn_all. unfold DEFAULT_URGENCY. destruct (parse_priority _ _ r); auto. rewrite SV. reflexivity. }
      rewrite rf_turn by (left; discriminate). unfold turn. rewrite ST by auto.
      destruct (8 <? zlen r) eqn:LG.
      + exact Logic.I.
      + cbn [Z.eqb]. destruct (parse_priority (ce_sf E) (mk_pri 3 0) r) as [pr|]; [|er]. rewrite prio_allowed_iff.
        destruct (_ && _); [|er]. exact Logic.I. }
  destruct (Z.eqb_spec ty PRIORITY_UPDATE_PUSH) as [->|TU]; [change (c_refused PRIORITY_UPDATE_PUSH) with false; er|].
  destruct (c_refused ty); [er|].
  exact Logic.I.
Qed.
(* what follows a piece that fails is not looked at *)
Lemma real_app tl : bytes tl -> forall f s p busy e s' ev, c_inv E s -> bytes p -> (busy = true -> c_ce s) -> fits s ->
  run_fuel g f s p busy = RErr e s' ev -> no_long_value ev -> forall f2, (f <= f2)%nat -> run_fuel g f2 s (p ++ tl) busy = RErr e s' ev.
Proof.
  intros BT. destruct tl as [|z tl']; [|set (tl := z :: tl') in *].
  { intros f. induction f as [|f IH]; intros s p busy e s' ev I B BC F R NL f2 L; rewrite app_nil_r.
    - destruct p, busy; discriminate.
    - destruct f2 as [|f2]; [lia|]. assert (D : p <> [] \/ busy = true) by (destruct p; [destruct busy; [auto|discriminate]|left; discriminate]).
      rewrite rf_turn in * by exact D. unfold turn in *. assert (RN : runnable c_ce s p) by (destruct D; [left|right]; auto).
      pose proof (step_ok_all E s p I B RN) as OK. destruct (step_real E s p I F) as [ST|(ST & _)]; [|unfold g in R; rewrite ST in R; discriminate].
      unfold g in R at 1. unfold g at 1. rewrite ST in *. destruct (c_step true E s p) as [s1 r1 b1 e1| | | |] eqn:S1; try discriminate; [|exact R].
      cbn [step_ok] in OK. destruct OK as (O1 & O2 & O3 & O4 & O5). destruct (run_fuel g f s1 r1 b1) as [| |e0 x0 ev0|] eqn:R1; cbn [rev_] in R; try discriminate. injection R as -> -> <-.
      apply Forall_app in NL as [NL1 NL2]. pose proof (step_fits E s p s1 r1 b1 e1 I F S1 NL1) as F1.
      pose proof (IH s1 r1 b1 e s' ev0 O1 O2 O4 F1 R1 NL2 f2 ltac:(lia)) as X. rewrite app_nil_r in X. rewrite X. reflexivity. }
  intros f. induction f as [|f IH]; intros s p busy e s' ev I B BC F R NL f2 L.
  - destruct p, busy; discriminate.
  - destruct f2 as [|f2]; [lia|]. assert (D : p <> [] \/ busy = true) by (destruct p; [destruct busy; [auto|discriminate]|left; discriminate]).
    rewrite rf_turn in R by exact D. rewrite rf_turn by (left; destruct p; discriminate). unfold turn in *. assert (RN : runnable c_ce s p) by (destruct D; [left|right]; auto).
    pose proof (step_ok_all E s p I B RN) as OK. destruct (step_real E s p I F) as [ST|(ST & _)]; [|unfold g in R; rewrite ST in R; discriminate].
    unfold g in R at 1. unfold g at 1. rewrite ST in R. destruct (c_step true E s p) as [s1 r1 b1 e1| | |e0 s0 e1|] eqn:S1; try discriminate; cbn [step_ok] in OK.
    + destruct OK as (O1 & O2 & O3 & O4 & O5). specialize (O5 tl BT).
      assert (ST2 : c_step false E s (p ++ tl) = SGo s1 (r1 ++ tl) b1 e1).
      { destruct (step_real E s (p ++ tl) I F) as [ST2|(_ & v & l & ST2 & _)]; [rewrite ST2; exact O5|]. exfalso. rewrite O5 in ST2. injection ST2 as _ Q _ _. destruct r1; discriminate. }
      rewrite ST2. destruct (run_fuel g f s1 r1 b1) as [| |e0 x0 ev0|] eqn:R1; cbn [rev_] in R; try discriminate. injection R as -> -> <-.
      apply Forall_app in NL as [NL1 NL2]. pose proof (step_fits E s p s1 r1 b1 e1 I F S1 NL1) as F1.
      rewrite (IH s1 r1 b1 e s' ev0 O1 O2 O4 F1 R1 NL2 f2 ltac:(lia)). reflexivity.
    + destruct OK as (O1 & O5). specialize (O5 tl BT).
      assert (ST2 : c_step false E s (p ++ tl) = SErr e0 s0 e1).
      { destruct (step_real E s (p ++ tl) I F) as [ST2|(_ & v & l & ST2 & _)]; [rewrite ST2; exact O5|]. exfalso. rewrite O5 in ST2. discriminate. }
      rewrite ST2. exact R.
Qed.
End Err.
