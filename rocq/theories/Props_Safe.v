(* C49: no lawful call aborts.  Statements; proofs in SafeCtl.v, SafeMisc.v, SafeRead.v, SafeWrite.v, SafeMax.v, SafeMain.v, ControlCut.v.
   [history K h c] (ConnHist.v): the calls h, none of which failed, lead from a new connection to c.  [KAbort]: a failed assertion, or use
   of a stream that has been deleted or does not exist.  [call_ok] (SendSpec.v): what is reported as written or acknowledged was offered
   or written, at least one header field is submitted, responses go to request streams; [tidy] (ConnSched.v): nothing schedules a stream
   closed while it is blocked; [lawful] (SafeSpec.v): the arguments are in range and what the call builds on has been bound before.
   [env_fine]: the QPACK encoder, the data reader and the settings respect their contracts.  Which bytes the peer sends is free, except
   that a server must not be given a piece of the control stream ending right behind the element ID of a PRIORITY_UPDATE frame *)
From Verif Require Import Base BaseLemmas ConvModel ConvSpec QpackTabModel QpackDecModel HttpModel BidiModel BidiHist ControlModel ControlSpec GapModel PqModel TxModel TxSpec SchedModel ConnModel ConnDecomp ConnHist ConnUni ConnDemo ConnSched SendSpec SendDemo SafeSpec SafeMain.
Open Scope Z_scope.

Theorem C49_no_abort : forall K h c o, env_fine K -> (forall n src, ke_dec K n src <> Abort) ->
  history K h c -> sending_ok K h -> tidy h -> ConnDecomp.op_ok o -> call_ok K h c o -> lawful K h o -> kstep K c o <> KAbort.
Proof. intros K h c o EF DEC. exact (safe K EF DEC h c o). Qed.

(* ---- the hypotheses can be met ---- *)
(* a computable test for "does not end behind an element ID" *)
Definition be_hereb (b : list Z) : bool :=
  match rfc_varint b with
  | Some (ty, b1) => (ty =? PRIORITY_UPDATE) && match rfc_varint b1 with Some (len, b2) => match rfc_varint b2 with Some (_, []) => zlen b2 <? len | _ => false end | None => false end
  | None => false
  end.
Fixpoint clearb (n : nat) (b : list Z) : bool :=
  match n with O => false | S n' => negb (be_hereb b) && match next_frame b with None => true | Some b' => clearb n' b' end end.
Lemma clearb_ok n : forall b, clearb n b = true -> ~ behind_element_id b.
Proof.
  induction n as [|n IH]; intros b C B; [discriminate|]. cbn [clearb] in C. apply andb_true_iff in C as [C1 C2]. destruct B as [b b1 len b2 id V1 V2 V3 L|b b' N B].
  - unfold be_hereb in C1. rewrite V1, V2, V3, Z.eqb_refl in C1. rewrite (proj2 (Z.ltb_lt _ _) L) in C1. discriminate.
  - rewrite N in C2. exact (IH b' C2 B).
Qed.
(* a server: streams bound, SETTINGS, a request, a response with a body, priorities, a cut PRIORITY_UPDATE frame, bytes written and acknowledged *)
Definition ops49 : list cop :=
  [OBindControl 3; OBindQpack 7 11; OMaxClient 8; ORead 2 [0; 4] false; ORead 2 [0; 128; 15; 7; 0; 4] false; ORead 0 demo_req true; OResponse 0 nva1 true; OServerPriority 0 (mk_pri 1 1);
   OWritev 8%nat; OAddWrite 3 5; OBlock 0; OUnblock 0; OShutRead 4; OMaxClient 12; ORead 4 demo_req false; OShutdown].
Definition K49 := send_k true.
Definition h49 := run_h K49 ops49.
Definition c49 := run_end K49 ops49.
Example C49_applies : env_fine K49 /\ (forall n src, ke_dec K49 n src <> Abort) /\ history K49 h49 c49 /\ sending_ok K49 h49 /\ tidy h49 /\ length h49 = 16%nat /\ heard 2 h49 = [0; 4; 0; 128; 15; 7; 0; 4] /\
  (forall x, In x [1; 117; 200] -> lawful K49 h49 (ORead 2 [8; x] false)) /\ ~ lawful K49 h49 (ORead 2 [8] false) /\
  lawful K49 h49 (OMaxClient 12) /\ ~ lawful K49 h49 (OMaxClient 11) /\ lawful K49 h49 (OResponse 8 nva1 false) /\ ~ lawful K49 h49 OShutdown.
Proof.
  split; [apply send_fine|]. split; [discriminate|]. split; [apply run_ok; vm_compute; reflexivity|]. split; [apply sendb_ok; vm_compute; reflexivity|]. split; [apply tidy_plain; vm_compute; reflexivity|]. split; [vm_compute; reflexivity|]. split; [vm_compute; reflexivity|].
  assert (HD : heard 2 h49 = [0; 4; 0; 128; 15; 7; 0; 4]) by (vm_compute; reflexivity).
  assert (OPS : ops_of h49 = ops49) by (vm_compute; reflexivity). unfold lawful, qpack_bound. rewrite HD, OPS.
  split; [|split; [|split; [|split; [|split]]]].
  - intros x X. split; [unfold stream_id; lia|]. split; [reflexivity|]. intros _ _ b. cbn [app].
    intros V. assert (b = [4; 0; 128; 15; 7; 0; 4; 8; x]) as -> by (vm_compute in V; injection V as <-; reflexivity). apply (clearb_ok 3%nat). cbn [In] in X. destruct X as [<-|[<-|[<-|[]]]]; vm_compute; reflexivity.
  - intros (_ & _ & L). specialize (L eq_refl eq_refl [4; 0; 128; 15; 7; 0; 4; 8]). apply L; [vm_compute; reflexivity|].
    apply (be_next _ [128; 15; 7; 0; 4; 8]); [vm_compute; reflexivity|]. apply (be_here _ [4; 8] 4 [8] 8); vm_compute; reflexivity.
  - split; [reflexivity|]. split; [lia|]. intros m I. cbn [In ops49] in I. repeat (destruct I as [I|I]; [try discriminate I; injection I as <-; lia|]). destruct I.
  - intros (_ & _ & L). specialize (L 12). enough (12 <= 11) by lia. apply L. unfold ops49; cbn [In]; repeat (first [left; reflexivity|right]).
  - split; [reflexivity|]. exists 7, 11. unfold ops49; cbn [In]; repeat (first [left; reflexivity|right]).
  - intros (_ & L). apply (L eq_refl). unfold ops49; cbn [In]; repeat (first [left; reflexivity|right]).
Qed.

(* ---- the contract is needed: without one clause, a call aborts ---- *)
(* nghttp3_conn_set_client_stream_priority before nghttp3_conn_bind_control_stream; nothing in its documentation forbids it *)
Theorem C49_priority_unbound_refuted : ~ (forall K h c id data, env_fine K -> history K h c -> sending_ok K h -> tidy h -> ke_server K = false -> stream_id id -> bytes data ->
  kstep K c (OClientPriority id data) <> KAbort).
Proof.
  intros H. apply (H (send_k false) (run_h (send_k false) [OBindQpack 6 10; ORequest 0 nva1 false]) (run_end (send_k false) [OBindQpack 6 10; ORequest 0 nva1 false]) 0 [117; 61; 49] (send_fine false)).
  - apply run_ok; vm_compute; reflexivity.
  - apply sendb_ok; vm_compute; reflexivity.
  - apply tidy_plain; vm_compute; reflexivity.
  - reflexivity.
  - unfold stream_id; lia.
  - repeat (constructor; [unfold is_byte; lia|]). constructor.
  - vm_compute. reflexivity.
Qed.
(* one read of the peer's bytes, cut right behind a prioritized element ID *)
Theorem C49_element_id_refuted : ~ (forall K h c id src fin, env_fine K -> history K h c -> sending_ok K h -> tidy h -> stream_id id -> local_uni K id = false -> bytes src ->
  kstep K c (ORead id src fin) <> KAbort).
Proof.
  intros H. apply (H (send_k true) [] (conn_init (send_k true)) 2 [0; 4; 0; 128; 15; 7; 0; 4; 8] false (send_fine true)).
  - constructor.
  - intros pre x post E. destruct pre; discriminate E.
  - apply tidy_plain; reflexivity.
  - unfold stream_id; lia.
  - reflexivity.
  - repeat (constructor; [unfold is_byte; lia|]). constructor.
  - vm_compute. reflexivity.
Qed.
Print Assumptions C49_no_abort.
Print Assumptions C49_priority_unbound_refuted.
Print Assumptions C49_element_id_refuted.
