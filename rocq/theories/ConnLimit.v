(* The number of request streams waiting for the QPACK encoder never exceeds the limit of the settings. *)
From Verif Require Import Base BaseLemmas Chunk ConvModel RdVarint QpackTabModel QpackDecModel QpackDecProofs QpackHistModel QpackHistProofs HttpModel HttpSpec
  BidiModel BidiHist BidiSpec BidiProofs BidiRun BidiAcct BidiDec TraceSpec TraceHttp TraceProofs ControlModel GapModel PqModel PqProofs TxModel SchedModel SchedProofs SchedFair
  ConnModel ConnCtl ConnStep ConnWf ConnDecomp ConnRx ConnHist ConnRead.
Open Scope Z_scope.

Lemma run_stop_full pre fin E f : forall s p busy s' rest ev, run_fuel (bstep pre fin E) f s p busy = RStop s' rest ev -> e_full E = false.
Proof.
  induction f as [|f IH]; intros s p busy s' rest ev; [destruct p, busy; discriminate|].
  assert (D : (p = [] /\ busy = false) \/ forall g : bst -> list Z -> sres bst bev, run_fuel g (S f) s p busy = turn g s p (run_fuel g f)).
  { destruct p; [destruct busy|]; auto. }
  destruct D as [[-> ->]|D]; [discriminate|]. rewrite D. unfold turn.
  assert (K : forall s1 r1 e1, bstep pre fin E s p = SStop s1 r1 e1 -> e_full E = false).
  { intros s1 r1 e1. unfold bstep. destruct (b_rd s).
    - destruct (rd_varint _ _ _); discriminate.
    - destruct (rd_varint _ _ _); try discriminate. unfold frame_start, b_fail.
      repeat match goal with |- context [match ?c with _ => _ end] => destruct c end; discriminate.
    - unfold data_step, b_fail. destruct (on_data_chunk _ _) as [h [|]]; [|discriminate]. cbv zeta.
      destruct (_ =? 0); [destruct (transit _ _ _ _)|]; discriminate.
    - unfold headers_step. cbv zeta. destruct (decode_section _ _ _ _) as [vs q] eqn:DS. destruct (on_headers _ _ _ _ _ _) as [[h out] ok].
      destruct ok; cbn [negb]; [|unfold malformed; discriminate].
      assert (HE : forall sc d p rest c evs s1 r1 e1, headers_end E s h sc d p rest c evs = SStop s1 r1 e1 -> False).
      { intros sc d p0 rest0 c evs s2 r2 e2. unfold headers_end, malformed. destruct (match b_ph s with HpHeadersBegin => _ | _ => _ end) as [[h' [|]]| |]; try discriminate. destruct (transit _ _ _ _); discriminate. }
      destruct q; try discriminate; unfold b_fail.
      + destruct (e_full E); [discriminate|auto].
      + destruct (_ =? 0); [|discriminate]. intros H. elim (HE _ _ _ _ _ _ _ _ _ H).
      + intros H. elim (HE _ _ _ _ _ _ _ _ _ H).
    - cbv zeta. destruct (_ =? 0); discriminate.
    - discriminate. }
  destruct (bstep pre fin E s p) as [s1 r1 b1 e1|s1 e1|s1 r1 e1|e s1 e1|]; try discriminate.
  - destruct (run_fuel (bstep pre fin E) f s1 r1 b1) as [s2 e2|s2 r2 e2|e s2 e2|] eqn:RF; cbn [rev_]; try discriminate. intros _. eapply IH; eauto.
  - intros _. eapply K; reflexivity.
Qed.
Lemma b_read_full pre E s p fin s' rest ev : b_read pre E s p fin = RStop s' rest ev -> e_full E = false.
Proof.
  unfold b_read, b_run, run. destruct (run_fuel _ _ _ _ _) as [s1 e1|s1 r1 e1|e s1 e1|] eqn:R; try discriminate.
  - destruct fin; [|discriminate]. unfold b_finish. destruct (b_rd s1); try discriminate. destruct (negb _); [discriminate|]. destruct (transit _ _ _ _); discriminate.
  - intros _. eapply run_stop_full; eauto.
Qed.
Lemma recv_full E x src fin x' ev : recv false E x src fin = XOk x' ev -> b_blk (x_st x') = true -> b_blk (x_st x) = true \/ e_full E = false.
Proof.
  unfold recv. destruct (_ && _); [intros [= <- _]; auto|]. cbv zeta. unfold read_bidi. cbn [x_st x_shut x_inq x_id x_eof x_closed x_ret x_def].
  destruct (x_shut x); [intros [= <- _]; auto|]. destruct (b_blk (x_st x)) eqn:BK; [auto|].
  pose proof (b_read_blk false E (x_st x) src fin) as BB. destruct (b_read false E (x_st x) src fin) as [s' e'|s' rest e'|e s' e'|] eqn:R; try discriminate; intros [= <- _]; cbn [x_add x_st].
  - rewrite BB by auto. discriminate.
  - right. eapply b_read_full; eauto.
Qed.
Lemma proc_full E f : forall x, b_blk (x_st x) = false -> match process_blocked false f E x with XOk x' _ | XGone x' _ => b_blk (x_st x') = true -> e_full E = false | _ => True end.
Proof.
  induction f as [|f IH]; intros x BK; cbn [process_blocked]; [exact Logic.I|].
  destruct (x_inq x) as [|[buf room] q] eqn:Q; [congruence|].
  assert (REC : forall y l n m ev, b_blk (x_st y) = false ->
    match x_evs ev (process_blocked false f E (x_add y l n m)) with XOk x' _ | XGone x' _ => b_blk (x_st x') = true -> e_full E = false | _ => True end).
  { intros y l n m ev Y. specialize (IH (x_add y l n m) Y). destruct (process_blocked false f E _) as [x'|x'| |]; cbn [x_evs]; auto. }
  unfold read_bidi. destruct (x_shut x) eqn:SH.
  - rewrite Q. cbn [x_add x_st]. rewrite BK. apply REC; auto.
  - rewrite BK. set (fn := _ && x_eof x). pose proof (b_read_blk false E (x_st x) buf fn) as BB.
    destruct (b_read false E (x_st x) buf fn) as [s' e'|s' rest e'|e s' e'|] eqn:R; try exact Logic.I.
    + cbn [x_inq x_add x_st]. rewrite Q. cbn [x_add x_st]. rewrite BB by auto. apply (REC (mk_rx (x_id x) s' ((buf, room) :: q) false (x_eof x) (x_closed x) (x_ret x) (x_def x))). cbn [x_st]. auto.
    + pose proof (b_read_full _ _ _ _ _ _ _ _ R) as FU. repeat match goal with |- context [match ?b with _ => _ end] => destruct b end; cbn [x_evs]; auto.
Qed.
Lemma resume_full E x : b_blk (x_st x) = false -> match resume false E x with XOk x' _ | XGone x' _ => b_blk (x_st x') = true -> e_full E = false | _ => True end.
Proof.
  intros B. unfold resume. pose proof (proc_full E (S (length (x_inq x))) x B) as P. destruct (process_blocked _ _ _ _) as [x' ev|x' ev| |]; auto. destruct (_ && _); unfold x_delete; cbn [x_add x_st]; auto.
Qed.

Lemma bubble_up_len less f : forall p i, pq_len (bubble_up less f p i) = pq_len p.
Proof. induction f as [|f IH]; intros p i; cbn [bubble_up]; auto. repeat match goal with |- context [if ?b then _ else _] => destruct b end; auto; try (rewrite IH; reflexivity). Qed.
Lemma bubble_down_len less f : forall p i, pq_len (bubble_down less f p i) = pq_len p.
Proof. induction f as [|f IH]; intros p i; cbn [bubble_down]; auto. cbv zeta. repeat match goal with |- context [if ?b then _ else _] => destruct b end; auto; try (rewrite IH; reflexivity). Qed.
Lemma push_len less p x : pq_len (pq_push less p x) = S (pq_len p).
Proof. unfold pq_push. rewrite bubble_up_len. reflexivity. Qed.
Lemma pop_len less p q : pq_pop less p = Ok q -> (pq_len q = pq_len p - 1)%nat.
Proof. unfold pq_pop. destruct (Nat.eqb _ _); [discriminate|]. intros [= <-]. rewrite bubble_down_len. reflexivity. Qed.

Section L.
Variable K : kenv.
Definition LIM (c : conn) : Prop := Z.of_nat (pq_size (k_blk c)) <= Z.max 0 (TxModel.s_blk (ke_set K)).
Lemma mid_lim c id s x : LIM c -> (b_blk (x_st x) = true -> b_blk (x_st (st_x s)) = true \/ Z.of_nat (pq_size (k_blk c)) < TxModel.s_blk (ke_set K)) -> LIM (mid c id s x).
Proof.
  intros L H. unfold mid. destruct (b_blk (x_st x) && negb (b_blk (x_st (st_x s)))) eqn:P; [|exact L]. apply andb_prop in P as [P1 P2]. destruct (H P1) as [Q|Q]; [rewrite Q in P2; discriminate|].
  unfold LIM, pq_size in *. cbn [k_blk kk_blk]. rewrite push_len. change (k_blk (kk_dec (ConnModel.put c id (ss_x s x)) (b_dec (x_st x)))) with (k_blk c). lia.
Qed.
Lemma add_ebufs_blk es : forall c c', add_ebufs c es = Ok c' -> k_blk c' = k_blk c.
Proof.
  induction es as [|e es IH]; intros c c'; cbn [add_ebufs]; [congruence|]. destruct (k_tenc c) as [q|]; [|discriminate]. destruct (find_stream c q) as [s|] eqn:F; [|discriminate].
  intros H. apply obind_ok in H as (t & _ & H). apply IH in H. rewrite H. reflexivity.
Qed.
Lemma kst_lim c a c' : kst K c a c' -> LIM c -> LIM c'.
Proof.
  intros H L. destruct H; try exact L.
  - unfold LIM, add_stream. destruct (is_server_bidi K id); exact L.
  - apply mid_lim; auto. intros B. destruct (recv_full _ _ _ _ _ _ H2 B) as [Q|Q]; [left; exact Q|right]. unfold benv_of in Q. cbn [e_full] in Q. apply Z.leb_gt in Q. exact Q.
  - assert (LIM (kk_blk c q)) as L1 by (unfold LIM, pq_size in *; cbn [k_blk kk_blk]; apply pop_len in H3; lia). apply mid_lim; auto. intros B. right.
    pose proof (resume_full (benv_of K (kk_blk c q) s) (unblocked c s) eq_refl) as RF. rewrite H4 in RF. specialize (RF B). unfold benv_of in RF. cbn [e_full] in RF. apply Z.leb_gt in RF. exact RF.
  - assert (LIM (kk_blk c q)) as L1 by (unfold LIM, pq_size in *; cbn [k_blk kk_blk]; apply pop_len in H3; lia). apply mid_lim; auto. intros B. right.
    pose proof (resume_full (benv_of K (kk_blk c q) s) (unblocked c s) eq_refl) as RF. rewrite H4 in RF. specialize (RF B). unfold benv_of in RF. cbn [e_full] in RF. apply Z.leb_gt in RF. exact RF.
  - unfold LIM, add_stream. destruct (is_server_bidi K id); exact L.
  - unfold LIM, rem_stream. destruct (is_server_bidi K id); exact L.
  - destruct (identify_same _ _ _ _ H2) as [-> _]. exact L.
  - unfold LIM in *. cbn [k_blk kk_sch]. rewrite (add_ebufs_blk _ _ _ H2). exact L.
Qed.
Lemma hist_lim h c : history K h c -> LIM c.
Proof.
  intros H. induction H as [|h c o c' rv evs H IH OK S]; [unfold LIM; cbn; lia|].
  destruct (step_decomp _ _ _ _ _ _ (h_wf _ _ _ H) OK S) as (acts & D & _). clear H S OK. induction D; auto. apply IHD. eapply kst_lim; eauto.
Qed.
(* a stream that is waiting is in the queue *)
Lemma waiting_bound h c l : history K h c -> NoDup l -> (forall id, In id l -> exists s, find_stream c id = Some s /\ b_blk (x_st (st_x s)) = true) -> zlen l <= Z.max 0 (TxModel.s_blk (ke_set K)).
Proof.
  intros H ND A. pose proof (hist_lim h c H) as L. pose proof (h_wf _ _ _ H) as W. unfold LIM, pq_size in L.
  assert (incl l (map (pq_q (k_blk c)) (seq 0 (pq_len (k_blk c))))) as I.
  { intros id Hi. apply A in Hi. apply (wf_blk _ _ W) in Hi. destruct Hi as (i & Hi & E). apply in_map_iff. exists i. split; [exact E|]. apply in_seq. lia. }
  apply NoDup_incl_length in I; auto. rewrite map_length, seq_length in I. unfold zlen. lia.
Qed.
End L.
