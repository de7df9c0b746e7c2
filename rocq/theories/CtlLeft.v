(* nghttp3_conn_get_frame_payload_left on the peer's control stream *)
From Verif Require Import Base BaseLemmas ConvModel ConvSpec ConvProofs RdVarint HttpModel Chunk Chunk2 ControlModel ControlSpec ControlProofs ControlTrace ControlFrame RfcStreamSpec.
Open Scope Z_scope.

Section Left.
Variable E : cenv.
Let g := c_step true E.
(* inside a payload of which more is to come *)
Definition pay (s : cst) : Prop := match c_rd s with CSetId | CSetVal | CElemId | CPrio | CIgn => True | _ => False end.
Lemma ign_left s p : zlen p < c_left s -> match c_ign s p with
  | SGo s' rest _ _ => pay s' /\ c_left s' - zlen rest = c_left s - zlen p
  | SMore s' _ => c_left s' = c_left s - zlen p
  | _ => True end.
Proof.
  intros L. unfold c_ign. rewrite Z.min_r by lia. destruct (Z.eqb_spec (c_left s - zlen p) 0); [lia|]. reflexivity.
Qed.
Lemma pay_step s p : c_inv E s -> pay s -> bytes p -> runnable c_ce s p -> zlen p < c_left s ->
  match g s p with
  | SGo s' rest _ _ => pay s' /\ c_left s' - zlen rest = c_left s - zlen p
  | SMore s' _ => c_left s' = c_left s - zlen p
  | _ => True end.
Proof.
  intros (I1 & I2 & I3 & I4 & I5) P B RN L. unfold pay in P. unfold g, c_step. destruct (c_rd s) eqn:R; try destruct P.
  - assert (N : p <> []) by (destruct RN as [RN|RN]; [exact RN|unfold c_ce in RN; congruence]). destruct I5 as [I5 _]. pose proof (fr_varint_ok (c_rv s) (c_left s) p I1 I5 B N) as F. unfold fv_ok in F.
    destruct (fr_varint _ _ _) as [rv l|v l rest| |]; try exact I.
    + cbn [c_left c_go]. lia.
    + destruct (l =? 0); cbn [c_fail]; auto. split; [exact I|]. cbn [c_left c_go]. lia.
  - assert (N : p <> []) by (destruct RN as [RN|RN]; [exact RN|unfold c_ce in RN; congruence]). destruct I5 as [I5 _]. pose proof (fr_varint_ok (c_rv s) (c_left s) p I1 I5 B N) as F. unfold fv_ok in F.
    destruct (fr_varint _ _ _) as [rv l|v l rest| |]; try exact I.
    + cbn [c_left c_go]. lia.
    + destruct (settings_entry _ _ _ _) as [[r evs]| |]; try exact I. destruct (Z.eqb_spec l 0); [pose proof (zlen_nonneg _ rest); lia|]. split; [exact I|]. cbn [c_left c_go c_with_set]. lia.
  - assert (N : p <> []) by (destruct RN as [RN|RN]; [exact RN|unfold c_ce in RN; congruence]). destruct I5 as [I5 _]. pose proof (fr_varint_ok (c_rv s) (c_left s) p I1 I5 B N) as F. unfold fv_ok in F.
    destruct (fr_varint _ _ _) as [rv l|v l rest| |]; try exact I.
    + cbn [c_left c_go]. lia.
    + destruct (Z.eqb_spec l 0); [pose proof (zlen_nonneg _ rest); lia|]. cbn [negb andb]. split; [exact I|]. cbn [c_left c_go]. lia.
  - unfold c_prio. rewrite Z.min_r by lia. destruct (zlen p <=? 0); [exact I|]. destruct (Z.eqb_spec (c_left s) (zlen p)); [lia|]. rewrite andb_false_r.
    destruct (_ <? _); [apply (ign_left (c_with_buf s []) p L)|]. reflexivity.
  - apply ign_left. exact L.
Qed.
Lemma pay_run f : forall s p busy s' ev, c_inv E s -> pay s -> bytes p -> (busy = true -> c_ce s) -> zlen p < c_left s -> run_fuel g f s p busy = ROk s' ev -> c_left s' = c_left s - zlen p.
Proof.
  induction f as [|f IH]; intros s p busy s' ev I P B BC L R.
  - destruct p, busy; try discriminate. injection R as <- _. change (zlen []) with 0. lia.
  - assert (D : (p = [] /\ busy = false) \/ (p <> [] \/ busy = true)) by (destruct p; [destruct busy; auto|right; left; discriminate]).
    destruct D as [[-> ->]|D]; [injection R as <- _; change (zlen []) with 0; lia|]. rewrite rf_turn in R by exact D. unfold turn in R.
    assert (RN : runnable c_ce s p) by (destruct D; [left|right]; auto). pose proof (step_ok_all E s p I B RN) as OK. pose proof (pay_step s p I P B RN L) as PS. unfold g in R at 1, PS.
    destruct (c_step true E s p) as [s1 r1 b1 e1|s1 e1| | |] eqn:S1; try discriminate.
    + destruct OK as (O1 & O2 & O3 & O4 & _). destruct PS as [P1 P2]. destruct (run_fuel g f s1 r1 b1) as [s2 e2| | |] eqn:R1; cbn [rev_] in R; try discriminate. injection R as <- _.
      rewrite (IH _ _ _ _ _ O1 P1 O2 O4 ltac:(lia) R1). lia.
    + injection R as <- _. exact PS.
Qed.
(* between frames nothing is left *)
Definition Z0 (s : cst) : Prop := match c_rd s with CType | CLen => c_left s = 0 | _ => True end.
Lemma z_step s p : Z0 s -> match g s p with SGo s' _ _ _ | SMore s' _ => Z0 s' | _ => True end.
Proof.
  intros Z. unfold Z0 in Z. unfold g, c_step, c_frame_start, c_prio, c_ign, c_fail. destruct (c_rd s) eqn:R; cbv zeta;
    repeat match goal with |- context [match ?x with _ => _ end] => match x with context [match _ with _ => _ end] => fail 1 | _ => destruct x end end;
    try exact I; try exact Z; try reflexivity.
Qed.
Lemma z_run f : forall s p busy s' ev, Z0 s -> run_fuel g f s p busy = ROk s' ev -> Z0 s'.
Proof.
  induction f as [|f IH]; intros s p busy s' ev Z R.
  - destruct p, busy; try discriminate. injection R as <- _. exact Z.
  - assert (D : (p = [] /\ busy = false) \/ (p <> [] \/ busy = true)) by (destruct p; [destruct busy; auto|right; left; discriminate]).
    destruct D as [[-> ->]|D]; [injection R as <- _; exact Z|]. rewrite rf_turn in R by exact D. unfold turn in R. pose proof (z_step s p Z) as ZS.
    destruct (g s p) as [s1 r1 b1 e1|s1 e1| | |]; try discriminate; [|injection R as <- _; exact ZS].
    destruct (run_fuel g f s1 r1 b1) as [s2 e2| | |] eqn:R1; cbn [rev_] in R; try discriminate. injection R as <- _. eapply IH; eauto.
Qed.
Lemma z_feed ps : forall s s' ev, Z0 s -> feed g 3 c_rank s ps = ROk s' ev -> Z0 s'.
Proof.
  induction ps as [|p ps IH]; intros s s' ev Z; cbn [feed]; [intros [= <- _]; exact Z|]. destruct (run g 3 c_rank s p false) as [s1 e1| | |] eqn:R; cbn [seq_res]; try discriminate.
  destruct (feed g 3 c_rank s1 ps) as [s2 e2| | |] eqn:F; cbn [rev_]; try discriminate. intros [= <- _]. eapply IH; [|exact F]. eapply z_run; [exact Z|exact R].
Qed.
(* a frame of which the payload is not complete *)
Lemma part_left s r s' ev ty len p f : c_inv E s -> at_frame s -> bytes r -> frame_head r ty len p -> zlen p < len -> (ty = GOAWAY \/ ty = MAX_PUSH_ID -> rfc_varint p = None) ->
  run_fuel g f s r false = ROk s' ev -> c_left s' = len - zlen p.
Proof.
  intros I [A1 A2] B (m & V1 & V2) L NV R. rewrite <- get_varint_rfc in V1 by exact B. destruct (gv_suffix _ _ _ B V1) as (B1 & _ & _). rewrite <- get_varint_rfc in V2 by exact B1. destruct (gv_suffix _ _ _ B1 V2) as (B2 & _ & _).
  assert (N : r <> []) by (intros ->; discriminate). assert (N' : m <> []) by (intros ->; discriminate).
  destruct f as [|f]; [destruct r; [congruence|discriminate]|]. rewrite rf_turn in R by auto. unfold turn in R.
  pose proof (step_ok_all E s r I B ltac:(left; exact N)) as OK. unfold g in R at 1. 
  assert (S1 : c_step true E s r = SGo (mk_cst CLen rv_reset ty (c_left s) (c_id s) (c_seen s) (c_set s) (c_goaway s) (c_closing s) (c_pushes s) (c_buf s)) m false []).
  { unfold c_step. rewrite A1, A2, rd_fresh by auto. rewrite V1. reflexivity. }
  rewrite S1 in *. destruct OK as (O1 & _). set (s1 := mk_cst CLen _ _ _ _ _ _ _ _ _ _) in *. rewrite rev_nil in R.
  destruct f as [|f]; [destruct m; [congruence|discriminate]|]. rewrite rf_turn in R by auto. unfold turn in R.
  pose proof (step_ok_all E s1 m O1 B1 ltac:(left; exact N')) as OK. unfold g in R at 1.
  assert (S2 : c_step true E s1 m = c_frame_start E s1 len p). { unfold c_step, s1. cbn [c_rd c_rv]. rewrite rd_fresh by auto. rewrite V2. reflexivity. }
  rewrite S2 in *. assert (ZL : (len =? 0) = false) by (apply Z.eqb_neq; pose proof (zlen_nonneg _ p); lia).
  assert (FS : match c_frame_start E s1 len p with SGo s2 rest b2 _ => (pay s2 \/ (ty = GOAWAY \/ ty = MAX_PUSH_ID) /\ (c_rd s2 = CGoaway \/ c_rd s2 = CMaxPush) /\ c_rv s2 = rv_reset /\ b2 = false) /\ rest = p /\ c_left s2 = len | SErr _ _ _ => True | _ => False end).
  { unfold c_frame_start, c_fail. cbv zeta. unfold s1. cbn [c_ty c_seen c_rd c_id c_set c_goaway c_closing c_pushes c_buf]. change FRAME_GOAWAY with GOAWAY. change FRAME_MAX_PUSH_ID with MAX_PUSH_ID. rewrite ZL.
    destruct (Z.eqb_spec ty GOAWAY) as [G|_]; [|destruct (Z.eqb_spec ty MAX_PUSH_ID) as [G|_]];
    repeat match goal with |- context [if ?x then _ else _] => destruct x end; try exact Logic.I; (split; [|split; reflexivity]);
      first [left; exact Logic.I | right; split; [auto|split; [cbn; auto|split; reflexivity]]]. }
  destruct (c_frame_start E s1 len p) as [s2 rest b2 e2| | | |]; try contradiction; try discriminate. destruct FS as (P & -> & <-). destruct OK as (O1' & O2' & _ & O4' & _).
  destruct (run_fuel g f s2 p b2) as [s3 e3| | |] eqn:R1; cbn [rev_] in R; try discriminate. injection R as <- _. destruct P as [P|(TY & RD & RV & ->)]; [eapply pay_run; eauto|].
  specialize (NV TY). rewrite <- get_varint_rfc in NV by exact B2.
  destruct p as [|z p']; [destruct f; injection R1 as <- _; change (zlen []) with 0; lia|]. set (p := z :: p') in *. assert (N2 : p <> []) by discriminate.
  destruct f as [|f]; [discriminate|]. rewrite rf_turn in R1 by auto. unfold turn in R1. unfold g in R1 at 1. unfold c_step in R1.
  assert (FV : exists rv, fr_varint (c_rv s2) (c_left s2) p = FvMore rv (c_left s2 - zlen p)).
  { unfold fr_varint. rewrite Z.min_r by lia. pose proof (zpos _ p N2). destruct (Z.leb_spec (zlen p) 0); [lia|]. rewrite zlen_length, firstn_all. destruct (Z.leb_spec (c_left s2) (zlen p)); [lia|].
    rewrite RV, rd_fresh by auto. rewrite NV. eexists. reflexivity. }
  destruct FV as (rv & FV). destruct RD as [RD|RD]; rewrite RD, FV in R1; injection R1 as <- _; reflexivity.
Qed.
(* a frame of which the header is not complete *)
Lemma part_head s r s' ev f : at_frame s -> bytes r -> (forall ty len p, ~ frame_head r ty len p) -> Z0 s' -> run_fuel g f s r false = ROk s' ev -> c_left s' = 0.
Proof.
  intros [A1 A2] B NH Z R. unfold Z0 in Z. destruct r as [|x r']; [destruct f; injection R as <- _; rewrite A1 in Z; exact Z|]. set (r := x :: r') in *.
  assert (N : r <> []) by discriminate. destruct f as [|f]; [discriminate|]. rewrite rf_turn in R by auto. unfold turn in R. unfold g in R at 1. unfold c_step in R. rewrite A1, A2, rd_fresh in R by auto.
  destruct (get_varint r) as [[ty m]|] eqn:V1; [|injection R as <- _; exact Z]. destruct (gv_suffix _ _ _ B V1) as (B1 & _ & _). rewrite rev_nil in R.
  destruct m as [|y m']; [destruct f; injection R as <- _; exact Z|]. set (m := y :: m') in *. assert (N' : m <> []) by discriminate.
  destruct f as [|f]; [discriminate|]. rewrite rf_turn in R by auto. unfold turn in R. unfold g in R at 1. unfold c_step in R. cbn [c_rd c_rv] in R. rewrite rd_fresh in R by auto.
  destruct (get_varint m) as [[len p]|] eqn:V2; [|injection R as <- _; exact Z].
  exfalso. apply (NH ty len p). exists m. rewrite <- !get_varint_rfc by auto. auto.
Qed.
End Left.
