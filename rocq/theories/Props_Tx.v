(* C31-C34: the sending side of a stream.  Statements only; proofs in TxProofs.v, TxRefine.v, TxFill.v, TxTrace.v *)
From Verif Require Import Base BaseLemmas ConvModel ConvSpec TxModel TxSpec TxProofs TxRefine TxFill TxTrace.

(* C31: for every history of calls, there is one byte string - the wire, made by the rules of TxSpec.emit -
   such that every write offers exactly its bytes from the position the transport has reached on (nothing
   skipped, repeated or reordered); and no call fails an assertion or touches released memory *)
Theorem C31_offered_in_order : forall E ops tr s, env_ok E -> trun E tx_init ops = (tr, s) -> lawful tr ->
  exists c, calls E led0 a0 tr c /\
    (forall pre vs fin, is_offer tr pre vs fin ->
       upto (zlen (concat vs)) (from (l_sent (ledger_of pre)) (untag (a_wire c))) = concat vs) /\
    l_sent (ledger_of tr) <= zlen (a_wire c) /\ l_hi (ledger_of tr) <= zlen (a_wire c) /\
    Forall (fun x => snd x <> RAbort) tr.
Proof.
  intros E ops tr s HE Ht Hl. destruct (refines E ops HE) as (c & Hc & R); rewrite Ht in *; cbn [fst snd] in *; auto.
  exists c; split; [exact Hc|]. split; [eapply calls_offers; eauto|]. pose proof (rel_acked _ _ _ R). destruct R.
  split; [lia|split; [auto|eapply calls_no_abort; eauto]].
Qed.
(* C32: the acked_stream_data callbacks add up to the application bytes below the acknowledged offset; the
   stream holds memory for every byte from some offset not beyond the acknowledged one to the end; once
   everything is acknowledged its memory is released *)
Theorem C32_acks_reported_once : forall E ops tr s, env_ok E -> trun E tx_init ops = (tr, s) -> lawful tr ->
  exists c, calls E led0 a0 tr c /\ reported tr = app_bytes (upto (l_acked (ledger_of tr)) (a_wire c)).
Proof.
  intros E ops tr s HE Ht Hl. destruct (run_reported E HE ops led0 tx_init a0 rel0) as (c & Hc & R & S); rewrite Ht in *; cbn [fst snd] in *; auto.
  exists c; split; [exact Hc|]. change (app_bytes (upto (l_acked led0) (a_wire a0))) with 0 in S. rewrite Z.add_0_r in S. exact S.
Qed.
Theorem C32_memory_held_until_acked : forall E ops tr s, env_ok E -> trun E tx_init ops = (tr, s) -> lawful tr ->
  exists c base, calls E led0 a0 tr c /\ 0 <= base <= l_acked (ledger_of tr) /\ held s = Some (from base (untag (a_wire c))) /\
    (l_acked (ledger_of tr) = zlen (a_wire c) -> t_chunks s = [] /\ held s = Some []).
Proof.
  intros E ops tr s HE Ht Hl. destruct (refines E ops HE) as (c & Hc & R); rewrite Ht in *; cbn [fst snd] in *; auto.
  destruct (rel_held _ _ _ R) as (base & H1 & H2). exists c, base; split; [exact Hc|split; [exact H1|split; [exact H2|]]].
  eapply rel_released; eauto.
Qed.
(* C33: when fin is offered, the vectors reach the end of everything there will ever be to send (as long as
   the caller adds nothing), nothing is pending and the end was declared.  The rule c_write of TxSpec.call
   says when it is offered: iff all this holds *)
Theorem C33_fin_is_the_end : forall E ops tr s, env_ok E -> trun E tx_init ops = (tr, s) -> lawful tr ->
  exists c, calls E led0 a0 tr c /\
    forall pre n vs es post, tr = pre ++ (OWrite n, ROffer vs true es) :: post -> Forall (fun x => adds (fst x) = false) post ->
      from (l_sent (ledger_of pre)) (untag (a_wire c)) = concat vs /\ a_pend c = [] /\ a_end c = true.
Proof.
  intros E ops tr s HE Ht Hl. destruct (refines E ops HE) as (c & Hc & R); rewrite Ht in *; cbn [fst snd] in *; auto.
  exists c; split; [exact Hc|]. eapply calls_fin; eauto.
Qed.
(* C34: the wire of a stream that carries frames is a sequence of RFC 9114 frames whose DATA payloads are
   exactly the non-empty answers of the reader, in order; and the bytes marked as application data are the
   reader's bytes *)
Theorem C34_data_frames : forall E ops tr s, env_ok E -> trun E tx_init ops = (tr, s) -> lawful tr ->
  exists c, calls E led0 a0 tr c /\ app_data (a_wire c) = read_bytes E (a_rd c) /\
    (Forall (fun x => raw (fst x) = false) tr ->
     exists fs, frames_of (untag (a_wire c)) fs /\ payloads 0 fs = chunks_read E (a_rd c)).
Proof.
  intros E ops tr s HE Ht Hl. destruct (refines E ops HE) as (c & Hc & R); rewrite Ht in *; cbn [fst snd] in *; auto.
  exists c; split; [exact Hc|]. split; [eapply calls_read; eauto; reflexivity|]. intros Hr. eapply calls_framing; eauto. apply framing0.
Qed.
Print Assumptions C31_offered_in_order.
Print Assumptions C32_acks_reported_once.
Print Assumptions C32_memory_held_until_acked.
Print Assumptions C33_fin_is_the_end.
Print Assumptions C34_data_frames.

(* A lawful history: a request with a body in two pieces, the reader blocks in between, partial writes,
   partial acknowledgements *)
Definition ex_env : txenv := mk_te
  (fun _ _ => Ok ([0; 0], [129; 7], [1; 2; 3]))
  (fun j => match j with O => RdData [[10; 11]; []; [12; 13; 14]] false false | 1%nat => RdErr ERR_WOULDBLOCK | _ => RdData [[20; 21]] true false end).
Definition ex_ops : list op :=
  [OSubmit [FHeaders [mknv [97] [98] 0]; FData] false; OFill; OWrite 1; OWritten 4; OWrite 8; OWritten 6; OAck 9; OResume; OWrite 8; OWritten 3;
   OAddAck 2; OAck 10; OWrite 2; OWritten 4; OAck 17].
Example ex_env_ok : env_ok ex_env.
Proof.
  split; [discriminate|split].
  - intros k nva p r e _ H. injection H as <- <- <-. repeat apply conj; try discriminate; try reflexivity; repeat (apply Forall_cons; [unfold is_byte; lia|]); apply Forall_nil.
  - intros [|[|j]] vecs eof ne H; inversion H; subst; (split; [repeat (constructor; try (unfold is_byte; lia))|left; discriminate]).
Qed.
Definition ex_tr := Eval vm_compute in fst (trun ex_env tx_init ex_ops).
Example ex_lawful : lawful ex_tr.
Proof.
  apply lawful_rec_ok. cbn [ex_tr lawful_rec]. repeat apply conj; try exact I; try discriminate; try (cbn; lia).
  repeat constructor; cbn; discriminate.
Qed.
Example ex_run : exists s, trun ex_env tx_init ex_ops = (ex_tr, s) /\
  In (OWrite 8, ROffer [[129; 7; 0; 5]; [10; 11]; [12; 13; 14]] false []) ex_tr /\
  In (OWrite 8, ROffer [[12; 13; 14]; [0; 2]; [20; 21]] true []) ex_tr /\
  reported ex_tr = 7 /\ l_acked (ledger_of ex_tr) = 17 /\ t_chunks s = [].
Proof. eexists; split; [vm_compute; reflexivity|]. repeat split; try reflexivity; cbn; auto 20. Qed.

(* An acknowledgement beyond what was sent is not rejected, and reports bytes that never left *)
Theorem C32_unsent_ack_rejected_refuted : ~ (forall E ops tr s pre off r post, env_ok E -> trun E tx_init ops = (tr, s) ->
  tr = pre ++ (OAck off, r) :: post -> l_sent (ledger_of pre) < off -> r = RRefused ERR_INVALID_ARGUMENT).
Proof.
  intros H. set (ops := [OSubmit [FData] false; OWrite 8; OWritten 2; OAck 7]).
  destruct (trun ex_env tx_init ops) as [tr s] eqn:Et.
  assert (tr = [(OSubmit [FData] false, RNone); (OWrite 8, ROffer [[0; 5]; [10; 11]; [12; 13; 14]] false []); (OWritten 2, RNone)] ++ [(OAck 7, RAcked [2])]) as Er.
  { apply (f_equal fst) in Et. vm_compute in Et. symmetry; exact Et. }
  assert (RAcked [2] = RRefused ERR_INVALID_ARGUMENT) as Hx by (eapply (H ex_env ops tr s _ 7 _ [] ex_env_ok Et Er); reflexivity).
  discriminate Hx.
Qed.
Print Assumptions C32_unsent_ack_rejected_refuted.
(* A HEADERS frame whose encoded field section is only a prefix (no field lines) is taken off the queue but
   never offered to the transport; and the bytes left in the chunk make a later release fail its assertion *)
Theorem C31_empty_section_sent_refuted : ~ (forall E p e, te_enc E 0 [] = Ok (p, [], e) -> bytes p -> p <> [] -> zlen p < 64 ->
  exists vs fin es, snd (texec E (tx_submit tx_init [FHeaders []] false) (OWrite 8)) = ROffer vs fin es /\ vs <> []).
Proof.
  intros H. specialize (H (mk_te (fun _ _ => Ok ([0; 0], [], [])) (fun _ => RdErr 0)) [0; 0] []).
  destruct H as (vs & fin & es & H1 & H2); [reflexivity|repeat constructor; unfold is_byte; lia|discriminate|reflexivity|].
  vm_compute in H1. injection H1 as <- <- <-. apply H2; reflexivity.
Qed.
Print Assumptions C31_empty_section_sent_refuted.
Definition ex_env2 : txenv := mk_te (fun _ _ => Ok ([0; 0], [], [])) (fun _ => RdErr 0).
Definition ex_ops2 : list op :=
  [ORaw [0]; OSubmit [FHeaders [mknv [97] [98] 0]] false; OFill; ORaw (repeat 7 255); OWrite 8; OWritten 256; OAck 256].
Definition ex_tr2 := Eval vm_compute in fst (trun ex_env2 tx_init ex_ops2).
Theorem C31_empty_section_no_abort_refuted : ~ (forall E ops, (forall k nva, te_enc E k nva = Ok ([0; 0], [], [])) ->
  lawful (fst (trun E tx_init ops)) -> Forall (fun x => snd x <> RAbort) (fst (trun E tx_init ops))).
Proof.
  intros H. specialize (H ex_env2 ex_ops2 ltac:(reflexivity)).
  assert (fst (trun ex_env2 tx_init ex_ops2) = ex_tr2) as E by (vm_cast_no_check (eq_refl ex_tr2)).
  rewrite E in H.
  assert (lawful ex_tr2) as L.
  { apply lawful_rec_ok. cbn [ex_tr2 lawful_rec].
    repeat match goal with
    | |- _ /\ _ => split
    | |- True => exact I
    | |- op_ok _ OFill => exact I
    | |- op_ok _ (OSubmit _ _) => repeat constructor; discriminate
    | |- op_ok _ (ORaw _) => split; [discriminate|]
    | |- bytes _ => unfold bytes; rewrite Forall_forall; intros x Hin; unfold is_byte; cbn [In] in Hin; clear - Hin; intuition lia
    | |- zlen _ < _ => reflexivity
    | |- op_ok _ (OWrite _) => discriminate
    | |- op_ok _ (OWritten _) => split; [discriminate|vm_compute; discriminate]
    | |- op_ok _ (OAck _) => split; [discriminate|vm_compute; discriminate]
    end. }
  specialize (H L). rewrite Forall_forall in H. apply (H (OAck 256, RAbort)); [|reflexivity]. cbn; auto 12.
Qed.
Print Assumptions C31_empty_section_no_abort_refuted.
