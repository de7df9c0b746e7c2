(* C36 priority queue, C38 ring buffer, C39 identifier tracker *)
From Coq Require Import Permutation.
From Verif Require Import Base PqModel PqSpec PqProofs RingModel RingSpec RingProofs RingHist GapModel GapSpec GapProofs GapHist.
Open Scope Z_scope.

(* C36: any intended sequence of calls acts on an abstract set of entries, of which the top is a minimum;
   the handle of every entry is its position *)
Theorem C36_priority_queue klt idx0 : strict_weak klt -> forall ops key, proper_use klt key (pq_init idx0) ops ->
  exists key' p l, q_all klt key (pq_init idx0) ops = Ok (key', p) /\ qrun klt (key, []) ops (key', l) /\
  Permutation (contents p) l /\ NoDup l /\
  (forall x, In x l -> (pq_idx p x < pq_len p)%nat /\ pq_q p (pq_idx p x) = x) /\
  (l <> [] -> exists m, pq_top p = Ok m /\ In m l /\ forall y, In y l -> klt (key' y) (key' m) = false).
Proof. exact (q_history klt idx0). Qed.
Print Assumptions C36_priority_queue.
Definition ex_ops : list qop := [QKey 1 50; QKey 2 20; QKey 3 70; QKey 4 10; QPush 1; QPush 2; QPush 3; QPush 4; QRemove 2; QPop; QKey 4 60; QPush 4].
Example C36_hyp_strict : strict_weak Z.ltb.
Proof. split; intros *; rewrite ?Z.ltb_lt, ?Z.ltb_ge; lia. Qed.
Example C36_hyp_use : proper_use Z.ltb (fun _ => 0) (pq_init (fun _ => 0%nat)) ex_ops.
Proof. vm_compute. repeat (split; [intuition discriminate|]). exact I. Qed.
Example C36_run : exists key p, q_all Z.ltb (fun _ => 0) (pq_init (fun _ => 0%nat)) ex_ops = Ok (key, p) /\ contents p = [1; 3; 4].
Proof. eexists. eexists. split; vm_compute; reflexivity. Qed.

(* C38: any intended sequence of calls acts on an abstract sequence *)
Theorem C38_ring_buffer junk0 junk n ops : n = 0 \/ pow2 n -> d_use n 0 ops ->
  exists r0 r c l, rb_init junk0 n = Ok r0 /\ d_all junk r0 ops = Ok r /\ drun (n, []) ops (c, l) /\
    rb_len r = zlen l /\ rb_full r = (zlen l =? c) /\
    (forall i, 0 <= i -> rb_get r i = match nth_error l (Z.to_nat i) with Some v => Ok v | None => Abort end).
Proof. exact (d_history junk0 junk n ops). Qed.
Print Assumptions C38_ring_buffer.
(* the abstract queue is deterministic, so the sequence above is the only one *)
Theorem C38_queue_deterministic s ops s1 s2 : drun s ops s1 -> drun s ops s2 -> s1 = s2.
Proof. exact (drun_det ops s s1 s2). Qed.
Print Assumptions C38_queue_deterministic.
Definition ex_dops : list dop := [DReserve 2; DPushBack 5; DPushFront 4; DPushBack 6; DReserve 4; DPushFront 3; DPushBack 7; DPopFront; DPushBack 8; DPushBack 9; DPushFront 1; DPopBack; DTruncate 2].
Example C38_hyp : d_use 0 0 ex_dops.
Proof. cbn. repeat split; try lia; [exists 1|exists 2]; lia. Qed.
Example C38_run : exists r, d_all (fun _ _ => 0) (mk_ring (fun _ => 0) 0 0 0) ex_dops = Ok r /\ rb_get r 0 = Ok 1 /\ rb_get r 1 = Ok 6 /\ rb_get r 2 = Abort.
Proof. eexists. split; [vm_compute; reflexivity|]. repeat split; vm_compute; reflexivity. Qed.

(* C39: the identifier tracker is a set of (client bidirectional) identifiers *)
Theorem C39_identifier_set ids : Forall stream_id_ok ids -> exists g, run_calls idtr_open gaptr_init ids = Ok (expected [] ids, g) /\
  forall id, stream_id_ok id -> exists v, idtr_is_open g id = Ok v /\ (v = true <-> exists i, In i ids /\ same_slot i id).
Proof. exact (idtr_history ids). Qed.
Print Assumptions C39_identifier_set.
(* C39: the gap tracker under it: after any pushes the gaps are sorted, disjoint, not touching, and exactly
   the offsets not covered; the queries answer accordingly and no assertion fails *)
Theorem C39_gap_tracker ps : Forall in_bounds ps -> ps <> [] ->
  exists g, run_calls push_call gaptr_init ps = Ok (map (fun _ => 0) ps, g) /\ gaps_ok 0 g /\
    (forall x, inside g x <-> 0 <= x < u64_max /\ ~ covered ps x) /\
    (forall o d, 0 <= o -> 0 < d -> o + d < u64_max -> exists v, is_pushed g o d = Ok v /\ (v = true <-> forall x, o <= x < o + d -> covered ps x)) /\
    (0 <= first_gap_offset g < u64_max /\ ~ covered ps (first_gap_offset g) /\ forall x, 0 <= x < first_gap_offset g -> covered ps x) /\
    (forall o, 0 <= o < u64_max -> exists b e, first_gap_after g o = Ok (b, e) /\ o < e <= u64_max /\ 0 <= b < e /\
        (forall x, b <= x < e -> ~ covered ps x) /\ (forall x, o <= x < b -> covered ps x) /\
        (0 < b -> covered ps (b - 1)) /\ (e < u64_max -> covered ps e)).
Proof. exact (gap_history ps). Qed.
Print Assumptions C39_gap_tracker.
(* C39: the connection keeps at most 32 gaps: an identifier is never accepted twice, one above all seen before
   is always accepted, and with up to 31 calls the answers are exact *)
Theorem C39_connection_tracker ids : Forall stream_id_ok ids -> exists rvs g, run_calls conn_bidi_idtr_open gaptr_init ids = Ok (rvs, g) /\
  length rvs = length ids /\ zlen g <= 32 /\ Forall (fun rv => rv = 0 \/ rv = ERR_STREAM_IN_USE) rvs /\
  (forall l1 i l2 j l3 r1 r2 r3 ri rj, ids = l1 ++ i :: l2 ++ j :: l3 -> rvs = r1 ++ ri :: r2 ++ rj :: r3 -> length r1 = length l1 -> length r2 = length l2 ->
     same_slot i j -> rj = ERR_STREAM_IN_USE) /\
  (forall l1 i l2 r1 ri r2, ids = l1 ++ i :: l2 -> rvs = r1 ++ ri :: r2 -> length r1 = length l1 -> (forall j, In j l1 -> j / 4 < i / 4) -> ri = 0) /\
  (zlen ids <= 31 -> rvs = expected [] ids).
Proof. exact (conn_idtr_history ids). Qed.
Print Assumptions C39_connection_tracker.
Example C39_run : exists g, run_calls idtr_open gaptr_init [8; 0; 4; 8; 100; 0; 12] = Ok ([0; 0; 0; ERR_STREAM_IN_USE; 0; ERR_STREAM_IN_USE; 0], g) /\ g = [(4, 25); (26, u64_max)].
Proof. eexists. split; vm_compute; reflexivity. Qed.
Example C39_pushes : exists g, run_calls push_call gaptr_init [(5, 10); (20, 3); (0, 2); (1, 8); (14, 7)] = Ok ([0; 0; 0; 0; 0], g) /\ g = [(23, u64_max)].
Proof. eexists. split; vm_compute; reflexivity. Qed.
(* a fresh identifier can be refused once more than 32 gaps have been made *)
Theorem C39_connection_exact_refuted : ~ (forall ids, Forall stream_id_ok ids -> forall rvs g, run_calls conn_bidi_idtr_open gaptr_init ids = Ok (rvs, g) -> rvs = expected [] ids).
Proof.
  intros H. set (ids := map (fun n => 8 * Z.of_nat n + 4) (seq 0 33) ++ [0]).
  assert (F : Forall stream_id_ok ids) by (apply Forall_forall; intros x X; revert x X; apply Forall_forall; cbn [ids app map seq]; repeat constructor; vm_compute; discriminate).
  specialize (H ids F). destruct (run_calls conn_bidi_idtr_open gaptr_init ids) as [[rvs g]| |] eqn:E; [|vm_compute in E; discriminate|vm_compute in E; discriminate].
  specialize (H _ _ eq_refl). apply (f_equal (fun l => last l 7)) in H. revert H E. vm_compute. intros H E. inversion E; subst. discriminate H.
Qed.
Print Assumptions C39_connection_exact_refuted.
