(* nghttp3_conn_read_stream taken apart: which of its paths a successful call took *)
From Verif Require Import Base BaseLemmas Chunk ConvModel RdVarint QpackTabModel QpackDecModel HttpModel BidiModel BidiHist ControlModel GapModel PqModel PqProofs PqWeak TxModel SchedModel SchedProofs SchedFair ConnModel ConnCtl ConnStep ConnRx ConnWf ConnDecomp ConnHist.
Open Scope Z_scope.

Definition rejected (c : conn) (id : Z) : bool := k_queued c && (k_goaway c <=? id).
Definition fresh (c : conn) (id : Z) : stream := new_stream id (rx_init id http_init (k_dec c)).
(* the stream, opened by this call if it was not there *)
Inductive opened (K : kenv) (c : conn) (id : Z) : conn -> stream -> list kev -> Prop :=
| op_found s : find_stream c id = Some s -> client_bidi id = true \/ peer_uni K id = true -> opened K c id c s []
| op_request r g (s : stream) : find_stream c id = None -> is_server_bidi K id = true -> conn_bidi_idtr_open (k_idtr c) id = Ok (r, g) ->
    s = (if rejected c id then ss_x (fresh c id) (rd_ign (st_x (fresh c id))) else fresh c id) ->
    opened K c id (add_stream K (kk_maxid (kk_idtr c g) (Z.max (k_maxid c) id)) id s) s (if rejected c id then [KStop id H3_REQUEST_REJECTED; KReset id H3_REQUEST_REJECTED] else [])
| op_uni : find_stream c id = None -> peer_uni K id = true -> opened K c id (add_stream K c id (fresh c id)) (fresh c id) [].
(* one read of a unidirectional stream that is there *)
Inductive uni_read (K : kenv) (c : conn) (id : Z) (s : stream) (src : list Z) (fin : bool) : conn -> Z -> list kev -> Prop :=
| ur_gone rvi c' rv evs : st_u s = UNone rvi -> src = [] -> fin = true -> rv_left rvi = 0 -> delete_stream K c id s = KOk c' rv evs -> uni_read K c id s src fin c' rv evs
| ur_typing rvi rvi' : st_u s = UNone rvi -> (zlen src =? 0) && fin = false -> rd_varint rvi src fin = VMore rvi' -> uni_read K c id s src fin (put c id (ss_u s (UNone rvi'))) (zlen src) []
| ur_type rvi v u c1 : st_u s = UNone rvi -> rd_varint rvi src fin = VDone v [] -> identify c v = Ok (c1, u) ->
    uni_read K c id s src fin (put c1 id (ss_u s u)) (zlen src) []
| ur_type_more rvi v rest u c1 c' n evs : st_u s = UNone rvi -> rd_varint rvi src fin = VDone v rest -> rest <> [] -> identify c v = Ok (c1, u) ->
    read_uni_typed K (put c1 id (ss_u s u)) id (ss_u s u) rest fin = KOk c' n evs -> uni_read K c id s src fin c' (zlen src - zlen rest + n) evs
| ur_known c' n evs : (forall rvi, st_u s <> UNone rvi) -> read_uni_typed K c id s src fin = KOk c' n evs -> uni_read K c id s src fin c' n evs.
Inductive read_shape (K : kenv) (c : conn) (id : Z) (src : list Z) (fin : bool) : conn -> Z -> list kev -> Prop :=
| rs_ignored : find_stream c id = None -> peer_uni K id = true -> src = [] -> fin = true -> read_shape K c id src fin c 0 []
| rs_nothing c0 s pre : opened K c id c0 s pre -> src = [] -> fin = false -> read_shape K c id src fin c0 0 pre
| rs_request c0 s pre c' rv evs : opened K c id c0 s pre -> client_bidi id = true -> (zlen src =? 0) && negb fin = false ->
    read_request_stream K c0 id s src fin = KOk c' rv evs -> read_shape K c id src fin c' rv (pre ++ evs)
| rs_uni c0 s c' rv evs : opened K c id c0 s [] -> peer_uni K id = true -> (zlen src =? 0) && negb fin = false ->
    uni_read K c0 id s src fin c' rv evs -> read_shape K c id src fin c' rv evs.
Lemma zlen_nil {A} (l : list A) : zlen l = 0 -> l = [].
Proof. destruct l; auto. unfold zlen. cbn. lia. Qed.
Lemma read_uni_shape K c id s src fin c' rv evs : read_uni K c id s src fin = KOk c' rv evs -> uni_read K c id s src fin c' rv evs.
Proof.
  unfold read_uni. destruct (st_u s) as [rvi| | | |] eqn:U; try (intros H; apply ur_known; [congruence|exact H]).
  destruct ((zlen src =? 0) && fin) eqn:Z0.
  - apply andb_true_iff in Z0 as [Z0 ->]. apply Z.eqb_eq, zlen_nil in Z0. destruct (rv_left rvi =? 0) eqn:L; cbn [negb]; [|discriminate]. apply Z.eqb_eq in L. intros H. eapply ur_gone; eauto.
  - unfold read_type. destruct (rd_varint rvi src fin) as [rv'|v rest| |] eqn:RV; cbn [obind]; try discriminate.
    + intros [= <- <- <-]. eapply ur_typing; eauto.
    + destruct (identify c v) as [[c1 u]| |] eqn:ID; cbn [obind]; try discriminate. destruct (zlen rest =? 0) eqn:ZR.
      * apply Z.eqb_eq, zlen_nil in ZR. subst rest. intros [= <- <- <-]. rewrite Z.sub_0_r. eapply ur_type; eauto.
      * destruct (read_uni_typed _ _ _ _ _ _) as [c2 n e2| |] eqn:RT; try discriminate. intros [= <- <- <-]. eapply ur_type_more; eauto. intros ->. discriminate ZR.
Qed.
Lemma read_existing_shape K c id src fin c0 s pre c' rv evs : opened K c id c0 s pre -> client_bidi id = true \/ (peer_uni K id = true /\ pre = []) ->
  read_existing K c0 id s src fin = KOk c' rv evs -> read_shape K c id src fin c' rv (pre ++ evs).
Proof.
  intros OP KD. unfold read_existing. destruct ((zlen src =? 0) && negb fin) eqn:NE.
  - apply andb_true_iff in NE as [Z0 NF]. apply Z.eqb_eq, zlen_nil in Z0. apply negb_true_iff in NF. intros [= <- <- <-]. rewrite app_nil_r. eapply rs_nothing; eauto.
  - destruct (stream_uni id) eqn:SU.
    + destruct KD as [KD|[KD ->]]; [apply bidi_uni in KD; congruence|]. intros H. apply read_uni_shape in H. eapply rs_uni; eauto.
    + destruct KD as [KD|[KD _]]; [|apply peer_is_uni in KD; congruence]. intros H. eapply rs_request; eauto.
Qed.
Theorem read_cases K c id src fin c' rv evs : read_stream K c id src fin = KOk c' rv evs -> id_range id /\ read_shape K c id src fin c' rv evs.
Proof.
  unfold read_stream. fold (peer_uni K id). destruct ((id <? 0) || (max_varint <? id)) eqn:RG; [discriminate|].
  intros H. split; [apply orb_false_iff in RG; unfold id_range; lia|]. revert H.
  destruct (find_stream c id) as [s|] eqn:F.
  - destruct (client_bidi id || peer_uni K id) eqn:CP; [|discriminate]. apply orb_true_iff in CP. intros H. apply (read_existing_shape K c id src fin c s [] c' rv evs); auto. + constructor; auto. + tauto.
  - destruct (is_server_bidi K id) eqn:SB.
    + destruct (conn_bidi_idtr_open (k_idtr c) id) as [[r g]| |] eqn:IT; try discriminate. cbv zeta. fold (fresh c id). fold (rejected (kk_maxid (kk_idtr c g) (Z.max (k_maxid c) id)) id).
      change (rejected (kk_maxid (kk_idtr c g) (Z.max (k_maxid c) id)) id) with (rejected c id).
      destruct (create_stream _ _ _ _) as [c1| |] eqn:CR; try discriminate. apply create_ok in CR as [F1 ->]. intros H.
      destruct (read_existing _ _ _ _ _ _) as [c2 r2 e2| |] eqn:RE; cbn [k_evs] in H; try discriminate. injection H as <- <- <-.
      eapply read_existing_shape; [eapply op_request; eauto| |exact RE]. left. unfold is_server_bidi in SB. apply andb_true_iff in SB. tauto.
    + destruct (peer_uni K id) eqn:PU; [|discriminate]. destruct ((zlen src =? 0) && fin) eqn:E0.
      { apply andb_true_iff in E0 as [Z0 ->]. apply Z.eqb_eq, zlen_nil in Z0. intros [= <- <- <-]. apply rs_ignored; auto. }
      destruct (create_stream _ _ _ _) as [c1| |] eqn:CR; try discriminate. apply create_ok in CR as [F1 ->]. fold (fresh c id). intros H.
      apply (read_existing_shape K c id src fin (add_stream K c id (fresh c id)) (fresh c id) [] c' rv evs); auto. constructor; auto.
Qed.
(* the same, reading a stream of known type *)
Inductive typed_read (K : kenv) (c : conn) (id : Z) (src : list Z) (fin : bool) : utype -> conn -> Z -> list kev -> Prop :=
| tr_ctl c' n evs : fin = false -> read_control_stream K c src = KOk c' n evs -> typed_read K c id src fin UCtl c' n evs
| tr_enc c' n evs : fin = false -> read_qpack_encoder K c src = KOk c' n evs -> typed_read K c id src fin UEnc c' n evs
| tr_dec n : fin = false -> ke_dec K (k_ndec c) src = Ok n -> typed_read K c id src fin UDec (kk_ndec c (S (k_ndec c))) n []
| tr_unk : typed_read K c id src fin UUnk c (zlen src) (if fin then [] else [KStop id H3_STREAM_CREATION_ERROR]).
Lemma read_typed_shape K c id s src fin c' n evs : read_uni_typed K c id s src fin = KOk c' n evs -> typed_read K c id src fin (st_u s) c' n evs.
Proof.
  unfold read_uni_typed. destruct (st_u s); try discriminate.
  - destruct fin; [discriminate|]. intros H. constructor; auto.
  - destruct fin; [discriminate|]. intros H. constructor; auto.
  - destruct fin; [discriminate|]. destruct (ke_dec K (k_ndec c) src) eqn:D; try discriminate. intros [= <- <- <-]. constructor; auto.
  - intros [= <- <- <-]. constructor.
Qed.
