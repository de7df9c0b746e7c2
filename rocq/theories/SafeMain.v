(* No lawful history aborts *)
From Verif Require Import Base SchedFair BaseLemmas Chunk ConvModel ConvSpec ConvProofs RdVarint QpackTabModel QpackDecModel HttpModel BidiModel BidiHist ControlModel ControlSpec ControlTrace GapModel PqModel TxModel TxSpec SchedModel SchedProofs ConnModel ConnStep ConnCtl ConnWf ConnDecomp ConnHist ConnRead ConnRecv ConnRecvStep ConnRecvHist RecvLog ConnUni ConnShut ConnSched ConnKind ConnTx ConnSend ConnSend2 SendSpec SafeSpec ControlCut SafeCtl SafeMisc SafeRead SafeWrite SafeMax.
Open Scope Z_scope.
Notation put := ConnModel.put.
Section Safe.
Context (K : kenv) (EF : env_fine K) (DEC : forall n src, ke_dec K n src <> Abort).
Lemma id_okb id : stream_id id -> ConnModel.id_ok id = true.
Proof. unfold stream_id, ConnModel.id_ok, max_varint. intros H. apply andb_true_iff. split; apply Z.leb_le; lia. Qed.
Lemma lift_no o : o <> Abort -> k_lift o <> KAbort. Proof. destruct o; cbn [k_lift]; congruence. Qed.
Lemma create_no c id s : create_stream K c id s <> Abort.
Proof. unfold create_stream. destruct (find_stream c id); [discriminate|]. cbv zeta. destruct (is_server_bidi K id); discriminate. Qed.
Lemma open_uni_no c id u ty frs : write_raw tx_init [ty] <> Abort -> open_uni K c id u ty frs <> Abort.
Proof.
  intros N. unfold open_uni. cbv zeta. pose proof (create_no c id (ss_u (new_stream id (rx_init id http_init (k_dec c))) u)) as C. destruct (create_stream _ _ _ _) as [c1| |]; cbn [obind]; [|discriminate|congruence].
  change (st_t (ss_u (new_stream id (rx_init id http_init (k_dec c))) u)) with tx_init. destruct (write_raw tx_init [ty]); cbn [obind]; [discriminate..|congruence].
Qed.
Lemma raw_no ty : write_raw tx_init [ty] <> Abort.
Proof. vm_compute. discriminate. Qed.
Lemma submit_no c id s nva dr fin : sinv (k_sch c) -> submit_headers c id s nva dr fin <> KAbort.
Proof.
  intros SV. unfold submit_headers. cbv zeta. apply lift_no. unfold sched_do. cbn [k_sch ConnModel.put kk_str].
  match goal with |- context [sc_submit ?a ?b ?r] => destruct (sc_submit_s a b r SV) as (s' & [-> _ _] & _) end. discriminate.
Qed.
Lemma goaway_no c g cm : wf K c -> k_tctl c <> None -> g <= k_goaway c -> queue_goaway c g cm <> KAbort.
Proof.
  intros W B L. unfold queue_goaway. destruct (k_tctl c) as [t|] eqn:T; [|congruence]. destruct (wf_tx _ _ W t (or_introl T)) as (_ & s & -> & _).
  destruct (Z.ltb_spec (k_goaway c) g); [lia|discriminate].
Qed.
Lemma has_enc_true c : k_tenc c <> None -> has_enc c = true. Proof. unfold has_enc. destruct (k_tenc c); [reflexivity|congruence]. Qed.
Theorem safe h c o : history K h c -> sending_ok K h -> tidy h -> op_ok o -> call_ok K h c o -> lawful K h o -> kstep K c o <> KAbort.
Proof.
  intros H SO TD O CO LW. pose proof (h_wf _ _ _ H) as W. destruct (hist_SI _ _ _ H TD) as [SI0 CL0]. pose proof (proj1 SI0) as SV.
  assert (CAP : 0 <= TxModel.s_cap (ke_set K)) by (destruct EF as [_ (_ & [X _] & _)]; exact X).
  assert (EN : forall i, enc_ok (ke_tx K i)) by exact (proj1 EF).
  destruct (hist_T K EF h c H SO) as (gf & TT & _ & KS & NK).
  assert (LIFE : forall i, find_stream c i <> None -> life i h <> []). { intros i F. apply (life_open K h c i H). unfold is_open. destruct (find_stream c i); [reflexivity|congruence]. }
  assert (QP : qpack_bound h -> has_enc c = true). { intros (e & d & I). apply has_enc_true. eapply hist_qpack; eauto. }
  assert (CT : ctl_bound h -> k_tctl c <> None). { intros (t & I). destruct (hist_bound K h c t H I) as (id & ->). discriminate. }
  destruct o; cbn [kstep]; cbn [lawful] in LW; cbn [call_ok] in CO.
  - (* bind control *) destruct LW as [L1 L2]. unfold bind_control. rewrite (id_okb _ L1), L2. cbn [andb negb]. destruct (k_tctl c); [discriminate|]. apply lift_no.
    pose proof (open_uni_no c id UCtl 0 [FSettings (ke_set K)] (raw_no 0)) as N. destruct (open_uni _ _ _ _ _ _); cbn [obind]; [discriminate..|congruence].
  - (* bind qpack *) destruct LW as (L1 & L2 & L3 & L4). unfold bind_qpack. rewrite (id_okb _ L1), (id_okb _ L2), L3, L4. cbn [andb negb]. destruct (k_tenc c); [discriminate|]. destruct (k_tdec c); [discriminate|]. apply lift_no.
    pose proof (open_uni_no c eid UEnc 2 [] (raw_no 2)) as N. destruct (open_uni K c eid UEnc 2 []) as [c1| |]; cbn [obind]; [|discriminate|congruence]. cbv zeta.
    match goal with |- context [open_uni K ?x did UDec 3 []] => pose proof (open_uni_no x did UDec 3 [] (raw_no 3)) as N2; destruct (open_uni K x did UDec 3 []) end; cbn [obind]; [discriminate..|congruence].
  - (* read *) destruct LW as (L1 & L2 & L3). eapply (N_read K (rq_of h) CAP DEC c (log_h h) (fun id => heard id h)).
    + split; [exact W|exact (hist_R K CAP h c H)| |exact (hist_idtr K h c H)]. split; [exact SV|]. intros x X. destruct (proj1 (proj2 SI0) x X) as (s & -> & _). discriminate.
    + exact (hist_LE K h c H).
    + exact (hist_U K h c H).
    + exact (hist_C K h c H).
    + intros i F. exact (heard_closed K h c i H F).
    + exact O.
    + exact (id_okb _ L1).
    + exact L2.
    + intros P b G SV1. rewrite app_nil_r. apply (L3 SV1 P b). rewrite <- get_varint_rfc; [exact G|]. apply bytes_app. split; [|exact O].
      destruct (find_stream c id) as [s|] eqn:F; [exact (proj1 (u_typ _ _ _ (hist_U K h c H) id s P F))|rewrite (heard_closed K h c id H F); constructor].
  - (* writev *) eapply (N_writev K EN c); [exact W|exact SI0|exact TT| |exact (hist_NHL K h c H SO)|exact (hist_dbuf K EF h c H)|apply CO|apply CO|exact (hist_decenc K h c H)|].
    + pose proof (hist_DI K h c H) as D. split; intros q s Q F; [exact (DI_enc K c q s D Q F)|exact (DI_dec K c q s D Q F)].
    + intros N id s F. exact (noenc_frq K h c id s EF H SO N F).
  - (* add_write_offset *) apply (N_written K EN c (fun i => slog K i h) gf); [exact TT|exact SV|]. intros F. exact (CO (LIFE _ F)).
  - apply (N_ack K EN c (fun i => slog K i h) gf id _ (TxSpec.OAddAck n)); [exact TT|left; exists n; split; reflexivity|]. intros F. exact (CO (LIFE _ F)).
  - apply (N_ack K EN c (fun i => slog K i h) gf id _ (OAck off)); [exact TT|right; exists off; split; reflexivity|]. intros F. exact (CO (LIFE _ F)).
  - (* request *) destruct LW as (L1 & L2 & L3 & L4). unfold submit_request. rewrite L1, (QP L2), (id_okb _ L3), L4. cbn [orb andb negb]. destruct (c_closing (k_ctl c)); [discriminate|].
    destruct (find_stream c id) as [s|] eqn:F; [discriminate|]. cbv zeta.
    match goal with |- context [create_stream K c id ?x] => set (s0 := x); destruct (create_stream K c id s0) as [c1| |] eqn:CR end; [|discriminate|exfalso; exact (create_no _ _ _ CR)].
    apply create_ok in CR as [_ ->]. apply submit_no. exact (proj1 (SI_new K (fun _ => False) c id s0 node_init (add_stream K c id s0) SI0 F eq_refl eq_refl lvl_init (sch_add K c id s0) (fun j => eq_refl))).
  - destruct LW as [L1 L2]. unfold submit_info. rewrite L1, (QP L2). cbn [andb negb]. destruct (find_stream c id); [apply submit_no; exact SV|discriminate].
  - destruct LW as [L1 L2]. unfold submit_response. rewrite L1, (QP L2). cbn [andb negb]. destruct (find_stream c id); [apply submit_no; exact SV|discriminate].
  - unfold submit_trailers. rewrite (QP LW). cbn [andb negb]. destruct (find_stream c id) as [s|]; [|discriminate]. destruct (t_end (st_t s)); [discriminate|apply submit_no; exact SV].
  - (* notice *) destruct LW as [L1 L2]. apply goaway_no; [exact W|exact (CT L1)|exact (hist_notice K h c H L2)].
  - (* shutdown *) destruct LW as [L1 L2]. unfold shutdown. apply goaway_no; [exact W|exact (CT L1)|]. destruct (ke_server K) eqn:SK.
    + pose proof (hist_notice K h c H (L2 eq_refl)) as G. unfold notice_id in G. rewrite SK in G. unfold NOTICE_STREAM_ID in G. lia.
    + exact (hist_goaway0 K h c H).
  - (* block *) unfold block_with. destruct (find_stream c id) as [s|]; [|discriminate]. cbv zeta. apply lift_no. destruct (client_bidi id); [|discriminate].
    unfold sched_do. cbn [k_sch ConnModel.put kk_str]. destruct (sc_block_s (k_sch c) id SV) as (s' & [-> _ _] & _). discriminate.
  - unfold wake_with. destruct (find_stream c id) as [s|]; [|discriminate]. cbv zeta. apply lift_no. destruct (client_bidi id); [|discriminate].
    unfold sched_do. cbn [k_sch ConnModel.put kk_str]. match goal with |- context [sc_wake ?a ?b ?r] => destruct (sc_wake_s a b r SV) as (s' & [-> _ _] & _) end. discriminate.
  - unfold block_with. destruct (find_stream c id) as [s|]; [|discriminate]. cbv zeta. apply lift_no. destruct (client_bidi id); [|discriminate].
    unfold sched_do. cbn [k_sch ConnModel.put kk_str]. destruct (sc_block_s (k_sch c) id SV) as (s' & [-> _ _] & _). discriminate.
  - unfold wake_with. destruct (find_stream c id) as [s|]; [|discriminate]. cbv zeta. apply lift_no. destruct (client_bidi id); [|discriminate].
    unfold sched_do. cbn [k_sch ConnModel.put kk_str]. match goal with |- context [sc_wake ?a ?b ?r] => destruct (sc_wake_s a b r SV) as (s' & [-> _ _] & _) end. discriminate.
  - (* close *) unfold close_stream. destruct (find_stream c id) as [s|] eqn:F; [|discriminate]. destruct (stream_uni id && _); [discriminate|]. cbv zeta.
    unfold sched_do. cbn [k_sch ConnModel.put kk_str]. destruct (sc_close_s (k_sch c) id SV) as (s' & [-> _ _] & _). destruct (b_blk (x_st (st_x (ss_code s code)))); [discriminate|].
    unfold delete_stream. apply (drop_no_abort K (fun _ => ([], 0))).
    + apply wf_sched. apply (wf_put K c id s (ss_code s code) W F eq_refl (fun x => x) eq_refl (fun x => x)).
    + change (find_stream (put c id (ss_code s code)) id <> None). rewrite (find_put_same _ _ _ _ F). discriminate.
  - (* shutdown_stream_read *) unfold shutdown_read. rewrite (id_okb _ LW). cbn [negb]. destruct (negb (client_bidi id)); [discriminate|]. cbv zeta.
    assert (NC : forall d, dec_cancel_stream d id <> Abort).
    { intros d. unfold dec_cancel_stream. unfold stream_id in LW. replace ((id <? 0) || (id >? max_varint)) with false by (symmetry; apply orb_false_iff; unfold max_varint; split; [apply Z.ltb_ge|rewrite Z.gtb_ltb; apply Z.ltb_ge]; lia). destruct (dbuf_overflow d); discriminate. }
    destruct (find_stream c id) as [s|].
    + destruct (x_shut (st_x s)); [discriminate|]. cbn [k_dec ConnModel.put kk_str]. pose proof (NC (k_dec c)) as N. destruct (dec_cancel_stream (k_dec c) id); [discriminate..|congruence].
    + pose proof (NC (k_dec c)) as N. destruct (dec_cancel_stream (k_dec c) id); [discriminate..|congruence].
  - (* max_client_streams_bidi *) destruct LW as (L1 & L2 & L3). unfold set_max_client. rewrite L1. cbn [andb]. destruct (Z.leb_spec (k_maxcl c) n) as [|G]; [discriminate|]. exfalso.
    destruct (hist_maxcl K h c H) as [E|I]; [lia|]. apply L3 in I. lia.
  - discriminate.
  - (* client priority *) destruct LW as (L1 & L2 & L3). unfold set_client_priority. rewrite L1, (id_okb _ L2). cbn [orb negb]. destruct (client_bidi id); [|discriminate]. cbn [negb]. destruct (find_stream c id); [|discriminate].
    pose proof (CT L3) as N. destruct (k_tctl c) as [t|] eqn:T; [|congruence]. destruct (wf_tx _ _ W t (or_introl T)) as (_ & s9 & -> & _). discriminate.
  - (* server priority *) destruct LW as (L1 & L2 & L3 & L4). unfold set_server_priority. rewrite L1, (id_okb _ L2).
    replace (urg_ok (p_urg p)) with true by (symmetry; unfold urg_ok; apply andb_true_iff; split; [apply Z.leb_le|apply Z.ltb_lt; change (Z.of_nat URGENCY_LEVELS) with 8]; lia).
    replace ((p_inc p =? 0) || (p_inc p =? 1)) with true by (symmetry; apply orb_true_iff; destruct L4; [left|right]; apply Z.eqb_eq; assumption). cbn [andb negb].
    destruct (client_bidi id) eqn:CB; [|discriminate]. cbn [negb]. destruct (find_stream c id) as [s|]; [|discriminate]. cbv zeta. apply lift_no. unfold update_priority. rewrite CB. cbn [negb].
    unfold sched_do. cbn [k_sch ConnModel.put kk_str]. assert (V : pri_valid p) by (unfold pri_valid; split; [lia|exact L4]).
    match goal with |- context [sc_priority ?a ?b ?q ?r] => destruct (sc_priority_s a b q r SV V) as (s' & [-> _ _] & _) end. discriminate.
Qed.
End Safe.
