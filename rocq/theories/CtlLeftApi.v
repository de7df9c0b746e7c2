(* nghttp3_conn_get_frame_payload_left of the peer's control stream, along histories of API calls *)
From Verif Require Import Base BaseLemmas Chunk Chunk2 ConvModel ConvSpec ConvProofs RdVarint QpackTabModel QpackDecModel HttpModel TxModel BidiModel BidiHist ControlModel ControlSpec ControlProofs ControlTrace ControlFrame ConnModel ConnCtl ConnWf ConnStep ConnHist ConnRead ConnUni Props_Uni SafeMax CtlApiSpec CtlApi CtlTold CtlNext CtlLeft RfcStreamSpec.
Open Scope Z_scope.

(* The bytes bs on the control stream are complete frames and then r *)
Definition frames_then (K : kenv) (n : Z) (bs r : list Z) : Prop :=
  bs = r \/
  exists p payload tl cbs g n', bs = p ++ tl /\ rfc_frame p = Some (SETTINGS, payload, []) /\
    ctl_told (ke_server K) (parse_priority (ke_sf K) (mk_pri 3 0)) n (2 ^ 62) 0 tl cbs g n' r.
Section Left.
Variable K : kenv.
Lemma ctl_left_is h c id : history K h c -> peer_stream K h c id 0 -> frame_payload_left K c id = c_left (k_ctl c).
Proof.
  intros H (P & F & T). destruct (find_stream c id) as [s|] eqn:FS; [|congruence]. destruct (u_typ _ _ _ (hist_U K h c H) id s P FS) as [B TY].
  unfold stream_type in T. rewrite stype_get in T by exact B. destruct (get_varint (heard id h)) as [[w r]|]; [|discriminate]. injection T as ->. destruct TY as [_ TY].
  assert (TY' : st_u s = UCtl) by exact TY. unfold frame_payload_left. rewrite (uni_bidi id (peer_is_uni K id P)). unfold peer_uni in P. rewrite P, FS, TY'. reflexivity.
Qed.
Lemma then_state h c n id r : history K h c -> limit_is K h n -> (ke_server K = true -> no_long_value (control_events h)) ->
  peer_stream K h c id 0 -> frames_then K n (behind_type (heard id h)) r ->
  bytes r /\ Z0 (k_ctl c) /\ exists s f ev, c_inv (env K n) s /\ at_frame s /\ run_fuel (c_step true (env K n)) f s r false = ROk (k_ctl c) ev.
Proof.
  intros H L NL PS FT. assert (CB : control_bytes K h c (behind_type (heard id h))) by (left; exists id; auto).
  destruct (api_ideal K h c n _ H L CB NL) as [B R].
  assert (Z : Z0 (k_ctl c)) by (eapply z_feed; [|exact R]; reflexivity).
  destruct FT as [E|(p & payload & tl & cbs & g' & n' & E & FR & T)].
  - rewrite E in *. split; [exact B|]. split; [exact Z|]. apply ifeed_cons in R as (t1 & x1 & x2 & Q1 & Q2 & _). cbn [feed] in Q2. injection Q2 as <- _.
    exists cst_init. eexists. exists x1. split; [apply c_inv_init|]. split; [split; reflexivity|exact Q1].
  - rewrite E in *. destruct (told_first (env K n) (k_ctl c) (control_events h) p SETTINGS payload tl B R NL FR) as (_ & l & r0 & e1 & s1 & e2 & _ & _ & _ & F4 & F5 & _ & _ & _ & _ & _ & A1 & A2 & A3 & A4 & A5 & A6).
    apply Forall_app in B as [_ B2].
    assert (SH : short (env K n) e2) by (intros SV; specialize (NL SV); rewrite F4 in NL; apply Forall_app in NL; tauto).
    destruct (told_run (env K n) _ _ _ _ _ _ _ T s1 (k_ctl c) e2 A1 A2 A3 A4 A5 A6 B2 F5 SH) as (f1 & t & f2 & -> & K1 & K2 & K3 & K4 & K5 & K6 & K7 & K8 & K9).
    split; [exact K3|]. split; [exact Z|]. apply ifeed_cons in K2 as (t1 & x1 & x2 & Q1 & Q2 & _). cbn [feed] in Q2. injection Q2 as <- _.
    exists t. eexists. exists x1. split; [exact K9|]. split; [exact K4|exact Q1].
Qed.
Theorem api_left_control h c n id r : history K h c -> limit_is K h n -> (ke_server K = true -> no_long_value (control_events h)) ->
  peer_stream K h c id 0 -> frames_then K n (behind_type (heard id h)) r ->
  (forall ty len p, frame_head r ty len p -> zlen p < len -> (ty = GOAWAY \/ ty = MAX_PUSH_ID -> rfc_varint p = None) -> frame_payload_left K c id = len - zlen p) /\
  ((forall ty len p, ~ frame_head r ty len p) -> frame_payload_left K c id = 0).
Proof.
  intros H L NL PS FT. rewrite (ctl_left_is h c id H PS). destruct (then_state h c n id r H L NL PS FT) as (B & Z & s & f & ev & I & A & R). split.
  - intros ty len p FH LT NV. eapply part_left; eauto.
  - intros NH. eapply part_head; eauto.
Qed.
End Left.
