(* C35, C37: the scheduler.  Statements only; proofs in SchedProofs.v, SchedWindow.v, SchedFair.v, SchedRun.v.
   A history is any sequence of the scheduler's operations (sop: creation, submission, resuming, offering to the
   transport, reporting bytes as written, blocking, priority change, closing).  V bounds how many bytes of one
   stream the transport can be offered before they are reported written (lawful); it may be anything up to 12 GiB. *)
From Verif Require Import Base BaseLemmas HttpModel PqModel PqProofs PqWeak SchedModel SchedProofs SchedWindow SchedFair SchedRun.
Open Scope Z_scope.

(* C35, scheduler: in every state of every history, the stream chosen is scheduled and no scheduled stream is more
   urgent; among equally urgent ones a non-incremental stream with a lower identifier is not passed over; and none is
   chosen only if none is scheduled.  The choice never fails an assertion. *)
Theorem C35_most_urgent_first : forall V f, capV V -> reached V f ->
  match get_next_tx (f_s f) with
  | Ok (Some x) => sched (f_s f) x = true /\
      (forall y, sched (f_s f) y = true -> urg (f_s f) x <= urg (f_s f) y) /\
      (forall y, sched (f_s f) y = true -> urg (f_s f) y = urg (f_s f) x -> inc (f_s f) y = false -> x <= y)
  | Ok None => forall y, sched (f_s f) y = false
  | _ => False
  end.
Proof. exact choice. Qed.
(* every operation within the rules succeeds *)
Theorem C35_scheduler_never_aborts : forall V f o, capV V -> reached V f -> lawful V f o -> exists f', fstep f o = Ok f'.
Proof. intros V f o HV HR HL. destruct (fstep_ok V f o HV (reached_winv V f HV HR) HL) as (f' & H & _). exists f'; exact H. Qed.
(* C37: while two incremental streams of one urgency both wait to be served, the bytes one gets are at most twice
   the bytes the other gets plus a constant (and 1600 for each submission on the other).  So none starves. *)
Theorem C37_fair_share : forall V u i j f ops f', capV V -> reached V f -> i <> j ->
  run_in V (fun f => waiting u i f /\ waiting u j f) f ops f' ->
  served i ops <= 2 * served j ops + 1600 * submits j ops + 4 * V + 8800.
Proof. exact fair_share. Qed.

(* non-vacuity: two incremental streams, one is offered and written, then the other is chosen *)
Definition ex_ops : list sop := [SNew 0 (mk_pri 3 1); SNew 4 (mk_pri 3 1); SSubmit 0 true; SSubmit 4 true].
Definition ex_f : fst_t := match fold_left (fun a o => match a with Ok f => fstep f o | x => x end) ex_ops (Ok f_init) with Ok f => f | _ => f_init end.
Definition ex_ops2 : list sop := [SOffer 0 4000 true; SWritten 0 1000 true; SOffer 4 4000 true; SWritten 4 4000 true; SOffer 0 4000 true].
Ltac ri := eapply ri_cons; [first [exact I|repeat split; vm_compute; reflexivity]|first [exact I|vm_compute; repeat split; first [reflexivity|congruence|right; reflexivity|idtac]]|vm_compute; reflexivity|].
Example ex_reached : exists f f', capV 4000 /\ reached 4000 f /\ run_in 4000 (fun f => waiting 3 0 f /\ waiting 3 4 f) f ex_ops2 f' /\
  get_next_tx (f_s f) = Ok (Some 0) /\ served 0 ex_ops2 = 1000 /\ served 4 ex_ops2 = 4000.
Proof.
  eexists; eexists. split; [vm_compute; split; congruence|]. split; [|split; [|split]].
  - exists ex_ops. unfold ex_ops. ri. ri. ri. ri. apply ri_nil. exact I.
  - unfold ex_ops2. ri. ri. ri. ri. ri. apply ri_nil. repeat split; vm_compute; reflexivity.
  - vm_compute; reflexivity.
  - split; reflexivity.
Qed.
Print Assumptions C35_most_urgent_first.
Print Assumptions C35_scheduler_never_aborts.
Print Assumptions C37_fair_share.
