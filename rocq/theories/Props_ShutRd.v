(* C61: nghttp3_conn_shutdown_stream_read *)
From Verif Require Import Base BaseLemmas ConvModel HttpModel QpackDecModel QpackHistSpec BidiModel BidiHist TxModel ControlModel ConnModel ConnDecomp ConnHist RecvSpec ConnDemo Props_Recv ShutRdSpec ShutRd ShutDead.
Open Scope Z_scope.

(* Once the reading side of a request stream was shut down no callback about what the peer sends on it is called again,
   whatever is called, as long as the stream exists *)
Theorem C61_silent : forall K h c id a x b, history K h c -> client_bidi id = true -> life id h = a ++ x :: b -> ConnHist.c_op x = OShutRead id -> all_shown id b = [].
Proof. intros K h c id a x b H CB. exact (life_silent_aux K id CB h c H a x b). Qed.
(* the same for the next call *)
Theorem C61_next : forall K h c o c' rv evs id, history K h c -> op_ok o -> kstep K c o = KOk c' rv evs -> client_bidi id = true -> shut_read id h -> shown id evs = [].
Proof. intros K h c o c' rv evs id H O S CB SH. exact (proj1 (step_silent K id CB c o c' rv evs (h_wf K h c H) O S (hist_SO K id CB h c H SH))). Qed.
(* and for a call that fails *)
Theorem C61_failing : forall K h c o e evs id, history K h c -> op_ok o -> kstep K c o = KDead e evs -> client_bidi id = true -> shut_read id h -> shown id evs = [].
Proof. intros K h c o e evs id H O S CB SH. exact (dead_shut K id CB c o e evs (h_wf K h c H) O S (hist_SO K id CB h c H SH)). Qed.
(* further bytes are all counted as consumed *)
Theorem C61_consumed : forall K h c src fin c' rv evs id, history K h c -> bytes src -> kstep K c (ORead id src fin) = KOk c' rv evs -> client_bidi id = true -> shut_read id h ->
  rv = zlen src /\ evs = [].
Proof. intros K h c src fin c' rv evs id H B S CB SH. exact (proj2 (step_silent K id CB c (ORead id src fin) c' rv evs (h_wf K h c H) B S (hist_SO K id CB h c H SH)) src fin eq_refl). Qed.
(* such bytes are never an error *)
Theorem C61_no_error : forall K h c src fin id, history K h c -> client_bidi id = true -> shut_read id h -> 0 <= id <= max_varint -> exists c', kstep K c (ORead id src fin) = KOk c' (zlen src) [].
Proof. intros K h c src fin id H CB SH R. exact (shut_reads K id CB c src fin (hist_SO K id CB h c H SH) R). Qed.
(* The first call tells the peer: one Stream Cancellation (RFC 9204 4.4.2) for the stream joins the bytes the decoder
   stream is to carry.  So does every call for a request stream that does not exist *)
Theorem C61_cancel : forall K h c id c' rv evs, history K h c -> client_bidi id = true -> ~ shut_read id h -> kstep K c (OShutRead id) = KOk c' rv evs ->
  rv = 0 /\ evs = [] /\ exists l, rfc_dstream l [ICancel id] /\ d_dbuf (k_dec c') = d_dbuf (k_dec c) ++ l.
Proof. intros K h c id c' rv evs H CB NS S. exact (shut_cancels K id CB h c c' rv evs H NS S). Qed.
(* a second call changes nothing *)
Theorem C61_again : forall K h c id, history K h c -> client_bidi id = true -> shut_read id h -> 0 <= id <= max_varint -> kstep K c (OShutRead id) = KOk c 0 [].
Proof. intros K h c id H CB SH R. exact (shut_twice K id CB h c H SH R). Qed.
(* nor does one for a stream that is not a request stream *)
Theorem C61_not_request : forall K c id, client_bidi id = false -> 0 <= id <= max_varint -> kstep K c (OShutRead id) = KOk c 0 [].
Proof. intros K c id CB R. cbn [kstep]. unfold shutdown_read. replace (id_ok id) with true by (symmetry; unfold id_ok; lia). rewrite CB. reflexivity. Qed.

(* ---- non-vacuity ---- *)
(* request 0 waits for an insertion and its reading is shut down; three more bytes come, then the insertion: nothing is
   shown, all bytes are reported as consumed *)
Definition ops61 : list cop := ops47 ++ [OShutRead 0].
Definition ops61b : list cop := ops61 ++ [OShutRead 0; ORead 2 [2; 63; 225; 1; 192; 1; 97] false; ORead 4 demo_req true].
Definition shows61 : bool * bool * list (Z * nat) * Z * Z :=
  (match demo_run true ops61b with Some _ => forallb op_okb ops61b | None => false end, is_open (demo_end true ops61b) 0,
   map (fun x => (c_rv x, length (shown 0 (c_evs x)))) (demo_h true ops61b), all_deferred 0 (demo_h true ops61b), zlen (d_dbuf (k_dec (demo_end true ops61))) - zlen (d_dbuf (k_dec (demo_end true ops47)))).
Example C61_applies : shows61 = (true, true, [(4, 2%nat); (0, 0%nat); (0, 0%nat); (7, 0%nat); (10, 0%nat)], 4, 1).
Proof. vm_compute. reflexivity. Qed.
Example C61_reached : history (demo true) (demo_h true ops61) (demo_end true ops61) /\ shut_read 0 (demo_h true ops61) /\ ~ shut_read 0 (demo_h true ops47).
Proof.
  split; [apply demo_ok; vm_compute; reflexivity|]. split; [apply shut_readb_ok; vm_compute; reflexivity|]. intros X. apply shut_readb_ok in X. vm_compute in X. discriminate X.
Qed.

(* request 4 waits behind request 0 with a section that is in error: the call that delivers the insertion shows fields of
   request 4, nothing of request 0, and fails *)
Definition ops61d : list cop := ops61 ++ [ORead 4 [1; 6; 2; 0; 209; 215; 193; 129] true].
Example C61_failing_applies : history (demo true) (demo_h true ops61d) (demo_end true ops61d) /\ shut_read 0 (demo_h true ops61d) /\
  match kstep (demo true) (demo_end true ops61d) (ORead 2 [2; 63; 225; 1; 192; 1; 97] false) with
  | KDead e evs => (e =? ERR_QPACK_DECOMPRESSION_FAILED) && (match shown 0 evs with [] => true | _ => false end) && (match shown 4 evs with [] => false | _ => true end) | _ => false end = true.
Proof. split; [apply demo_ok; vm_compute; reflexivity|]. split; [apply shut_readb_ok; vm_compute; reflexivity|vm_compute; reflexivity]. Qed.

(* ---- what does not hold: a stream whose reading was shut down, the peer told, counts no longer as blocked ----
   At most one stream may be blocked (QPACK_BLOCKED_STREAMS is 1).  Request 0 waits for an insertion, its reading is shut
   down, and the Stream Cancellation goes out.  For the encoder request 0 is then not a stream that can be blocked any more
   (RFC 9204 2.2.2.2, 2.1.2), so it may let request 4 wait for the insertion: that is answered with
   QPACK_DECOMPRESSION_FAILED, while without request 0 it waits. *)
Definition K61 : kenv := mk_ke true (mk_set max_varint 256 1 false false) demo_sf demo_tx (fun _ src => Ok (zlen src)).
Definition req61 (id : Z) : cop := ORead id ([1; 6] ++ if id =? 0 then [2; 128; 209; 215; 193; 16] else [2; 0; 209; 215; 193; 128]) true.
Definition setup61 : list cop := [OBindControl 3; OBindQpack 7 11; OWritev 16; OAddWrite 3 17; OWritev 16; OAddWrite 11 1; OWritev 16; OAddWrite 7 1].
Definition ops61c : list cop := setup61 ++ [req61 0; OShutRead 0; OWritev 16; OAddWrite 11 1].
Definition failed61 (r : kres) : bool := match r with KDead e [KStream 4 (BvFrame 1 6); KStream 4 BvBeginHeaders] => e =? ERR_QPACK_DECOMPRESSION_FAILED | _ => false end.
Definition waits61 (r : kres) : bool := match r with KOk c 4 [KStream 4 (BvFrame 1 6); KStream 4 BvBeginHeaders] => match find_stream c 4 with Some s => b_blk (x_st (st_x s)) | None => false end | _ => false end.
Lemma only_zero c id : forallb (fun j => negb (client_bidi j) || (j =? 0)) (map fst (k_str c)) = true -> is_open c id = true -> client_bidi id = true -> id = 0.
Proof.
  intros X O CB. assert (I : In id (map fst (k_str c))).
  { unfold is_open, find_stream in O. revert O. generalize (k_str c). clear. intros l. induction l as [|[i s] l IH]; cbn [find_s map fst In]; [discriminate|]. destruct (Z.eqb_spec i id); [auto|]. intros O. right. exact (IH O). }
  rewrite forallb_forall in X. specialize (X id I). rewrite CB in X. cbn [negb orb] in X. apply Z.eqb_eq. exact X.
Qed.
Theorem C61_still_counts_refuted : history K61 (run_h K61 ops61c) (run_end K61 ops61c) /\ TxModel.s_blk (ke_set K61) = 1 /\ shut_read 0 (run_h K61 ops61c) /\
  (exists x, In x (run_h K61 ops61c) /\ c_evs x = [KOffer 11 [[64]] false]) /\ rfc_dstream [64] [ICancel 0] /\ d_dbuf (k_dec (run_end K61 ops61c)) = [] /\
  (forall id, is_open (run_end K61 ops61c) id = true -> client_bidi id = true -> id = 0) /\
  failed61 (kstep K61 (run_end K61 ops61c) (req61 4)) = true /\ waits61 (kstep K61 (run_end K61 setup61) (req61 4)) = true.
Proof.
  assert (history K61 (run_h K61 ops61c) (run_end K61 ops61c)) as H by (apply run_ok; vm_compute; reflexivity).
  split; [exact H|]. split; [reflexivity|]. split; [apply shut_readb_ok; vm_compute; reflexivity|]. split.
  { assert (X : option_map c_evs (nth_error (run_h K61 ops61c) 10) = Some [KOffer 11 [[64]] false]) by (vm_compute; reflexivity).
    destruct (nth_error (run_h K61 ops61c) 10) as [x|] eqn:E; [|discriminate X]. exists x. split; [eapply nth_error_In; exact E|]. exact (f_equal (fun o => match o with Some y => y | None => [] end) X). }
  split; [apply rd_cons with (r := []); [reflexivity|constructor]|]. split; [vm_compute; reflexivity|]. split; [|split; vm_compute; reflexivity].
  intros id O CB. eapply only_zero; [|exact O|exact CB]. vm_compute. reflexivity.
Qed.
Print Assumptions C61_failing.
Print Assumptions C61_silent.
Print Assumptions C61_next.
Print Assumptions C61_consumed.
Print Assumptions C61_no_error.
Print Assumptions C61_cancel.
Print Assumptions C61_again.
Print Assumptions C61_not_request.
Print Assumptions C61_still_counts_refuted.
