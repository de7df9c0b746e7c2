(* What a call of the API does to a connection, as a sequence of elementary actions.  Everything proved about
   histories of calls goes through these *)
From Verif Require Import Base BaseLemmas Chunk ConvModel RdVarint QpackTabModel QpackDecModel HttpModel BidiModel BidiHist ControlModel GapModel PqModel TxModel SchedModel SchedFair ConnModel ConnCtl.
Open Scope Z_scope.

(* the map of streams *)
Definition keys (c : conn) : list Z := map fst (k_str c).
Lemma find_set_s l id s j : find_s (set_s l id s) j = if j =? id then match find_s l id with Some _ => Some s | None => None end else find_s l j.
Proof.
  induction l as [|[i t] l IH]; cbn.
  - destruct (j =? id); auto.
  - destruct (Z.eqb_spec i id) as [->|N]; cbn.
    + rewrite (Z.eqb_sym j id). destruct (Z.eqb_spec id j); auto.
    + rewrite IH. destruct (Z.eqb_spec i j) as [->|]; auto. destruct (Z.eqb_spec j id); [congruence|auto].
Qed.
Lemma keys_set_s l id s : map fst (set_s l id s) = map fst l.
Proof. induction l as [|[i t] l IH]; cbn; auto. destruct (i =? id); cbn; congruence. Qed.
Lemma find_del_s l id j : find_s (del_s l id) j = if j =? id then None else find_s l j.
Proof.
  unfold del_s. induction l as [|[i t] l IH]; cbn.
  - destruct (j =? id); auto.
  - destruct (Z.eqb_spec i id) as [->|N]; cbn.
    + rewrite IH. rewrite (Z.eqb_sym j id). destruct (Z.eqb_spec id j); auto.
    + rewrite IH. destruct (Z.eqb_spec i j) as [->|]; auto. destruct (Z.eqb_spec j id); [congruence|auto].
Qed.
Lemma keys_del_s l id : map fst (del_s l id) = filter (fun i => negb (i =? id)) (map fst l).
Proof. unfold del_s. induction l as [|[i t] l IH]; cbn; auto. destruct (i =? id); cbn; congruence. Qed.
Lemma find_in l id : find_s l id <> None <-> In id (map fst l).
Proof.
  induction l as [|[i t] l IH]; cbn; [tauto|]. destruct (Z.eqb_spec i id) as [->|N].
  - split; [auto|congruence].
  - rewrite IH. tauto.
Qed.
Lemma find_in_some l id s : find_s l id = Some s -> In id (map fst l).
Proof. intros H. apply find_in. congruence. Qed.
Lemma find_put c id s j : find_stream (put c id s) j = if j =? id then match find_stream c id with Some _ => Some s | None => None end else find_stream c j.
Proof. apply find_set_s. Qed.
Lemma find_put_same c id s0 s : find_stream c id = Some s0 -> find_stream (put c id s) id = Some s.
Proof. intros H. rewrite find_put, Z.eqb_refl, H. reflexivity. Qed.
Lemma find_put_other c id s j : j <> id -> find_stream (put c id s) j = find_stream c j.
Proof. intros H. rewrite find_put. apply Z.eqb_neq in H. rewrite H. reflexivity. Qed.
Lemma set_s_twice l id s t : set_s (set_s l id s) id t = set_s l id t.
Proof. induction l as [|[i x] l IH]; cbn; auto. destruct (i =? id) eqn:E; cbn; rewrite E; congruence. Qed.
Lemma put_put c id s t : put (put c id s) id t = put c id t.
Proof. unfold put. cbn. rewrite set_s_twice. reflexivity. Qed.
Lemma set_s_same l id s : find_s l id = Some s -> set_s l id s = l.
Proof. induction l as [|[i x] l IH]; cbn; auto. destruct (Z.eqb_spec i id); [intros [= ->]; congruence|intros H; rewrite IH; auto]. Qed.
Lemma put_same c id s : find_stream c id = Some s -> put c id s = c.
Proof. intros H. unfold put. rewrite set_s_same by exact H. destruct c; reflexivity. Qed.

(* a stream just created *)
Definition add_stream (K : kenv) (c : conn) (id : Z) (s : stream) : conn :=
  let c := kk_sch (kk_str c ((id, s) :: k_str c)) (sc_create (k_sch c) id) in
  if is_server_bidi K id then kk_num c (k_num c + 1) else c.
Lemma create_ok K c id s c' : create_stream K c id s = Ok c' -> find_stream c id = None /\ c' = add_stream K c id s.
Proof. unfold create_stream, add_stream. destruct (find_stream c id); [discriminate|]. intros [= <-]. auto. Qed.
(* the stream is removed from the map *)
Definition rem_stream (K : kenv) (c : conn) (id : Z) : conn :=
  let c' := kk_str c (del_s (k_str c) id) in if is_server_bidi K id then kk_num c' (k_num c - 1) else c'.
(* what reading leaves, before a priority is applied *)
Definition mid (c : conn) (id : Z) (s : stream) (x : rx) : conn :=
  let c := kk_dec (put c id (ss_x s x)) (b_dec (x_st x)) in
  if b_blk (x_st x) && negb (b_blk (x_st (st_x s))) then kk_blk c (pq_push (ricnt_less c) (k_blk c) id) else c.
(* the state a blocked stream is resumed from *)
Definition unblocked (c : conn) (s : stream) : rx := x_set_st (rx_now c s) (st_blk (x_st (rx_now c s)) false).

(* the ways the decoder changes on its own *)
Inductive dec_change (d : dec) : list Z -> dec -> Prop :=
| dc_read src d' n : read_encoder d src = (d', Ok n) -> dec_change d src d'
| dc_flush n d' l : write_decoder d n = Ok (d', l) -> n = get_decoder_streamlen d -> dec_change d [] d'
| dc_max n : dec_change d [] (dec_set_max_concurrent d n)
| dc_cancel id d' : dec_cancel_stream d id = Ok d' -> dec_change d [] d'.

(* the ways the sending side of a unidirectional stream changes *)
Inductive out_change (E : txenv) (t : txs) : txs -> Prop :=
| oc_raw l t' : write_raw t l = Ok t' -> out_change E t t'
| oc_ebuf l t' : write_ebuf t l = Ok t' -> out_change E t t'
| oc_submit frs : (forall nva, ~ In (TxModel.FHeaders nva) frs) -> ~ In TxModel.FData frs -> out_change E t (tx_submit t frs false)
| oc_fill t' es : tx_fill E t = Ok (t', es) -> out_change E t t'.

Inductive kact :=
| ANew (id : Z) (s : stream)
| ARecv (id : Z) (src : list Z) (fin : bool) (evs : list bev)
| AResume (id : Z) (evs : list bev) (n : Z)
| APriority (id : Z) (p : pri)                  (* the priority header field *)
| AUpdate (id : Z) (p : pri) (known : bool)     (* a PRIORITY_UPDATE frame that takes effect *)
| AUpdateIgn (id : Z) (p : pri)                 (* one that does not *)
| AControl (e : cev)
| ACtl (src : list Z)                           (* the bytes of the control stream are read; what they say comes as further actions *)
| ADel (id n code : Z)
| AType (id : Z) (u : utype)
| ADec (src : list Z)
| AMisc
| ABind (a b d : option Z)
| AOut (id : Z)                                 (* output of a unidirectional stream *)
| AGoaway (g : Z) (commence : bool)
| AFill (id : Z)
| AWritten (id n : Z)
| AAcked (id : Z) (calls : list Z)
| ASubmit (id : Z) (nva : list ConvModel.nv) (dr fin : bool)
| ABlock (id : Z) (fc : bool)                   (* fc: block_stream, else shutdown_stream_write *)
| AWake (id : Z) (fc : bool)                    (* fc: unblock_stream, else resume_stream *)
| AClose (id code : Z)
| AShut (id : Z)
| AServer (id : Z) (p : pri)
| AOffer (id : Z) (vs : list (list Z)) (fin : bool)
| ASee (e : kev).                               (* stop_sending, reset_stream *)

(* the events of an action *)
Definition vis (a : kact) : list kev :=
  match a with
  | ARecv id _ _ evs => map (KStream id) evs
  | AResume id evs n => map (KStream id) evs ++ deferred id n
  | AUpdate id p _ | AUpdateIgn id p => [KControl (CvPriority id p)]
  | AControl e => [KControl e]
  | ADel id n code => deferred id n ++ (if client_bidi id then [KClosed id code] else [])
  | AAcked id calls => map (KAcked id) calls
  | AOffer id vs fin => [KOffer id vs fin]
  | ASee e => [e]
  | _ => []
  end.

Definition peer_uni (K : kenv) (id : Z) : bool := if ke_server K then client_uni id else server_uni id.
Definition critical (u : utype) : Prop := u = UCtl \/ u = UEnc \/ u = UDec.
Definition fresh_stream (K : kenv) (c : conn) (id : Z) (s : stream) : Prop :=
  (* opened by the peer: refused at and beyond the identifier of the GOAWAY sent *)
  (is_server_bidi K id = true /\
   s = (let f := new_stream id (rx_init id http_init (k_dec c)) in if k_queued c && (k_goaway c <=? id) then ss_x f (rd_ign (st_x f)) else f)) \/
  (* the peer's unidirectional stream *)
  (peer_uni K id = true /\ s = new_stream id (rx_init id http_init (k_dec c))) \/
  (* opened locally *)
  (local_uni K id = true /\ id_ok id = true /\ exists u, critical u /\ s = ss_u (new_stream id (rx_init id http_init (k_dec c))) u) \/
  (ke_server K = false /\ client_bidi id = true /\ id_ok id = true /\ exists nva, s = new_stream id (rx_init id (record_request_method http_init (map same_nv nva)) (k_dec c))).

(* the tracker of identifiers: unchanged, or one identifier is opened *)
Definition idtr_step (g g' : gaptr) : Prop := g' = g \/ exists id r, 0 <= id <= max_varint /\ conn_bidi_idtr_open g id = Ok (r, g').
Inductive kst (K : kenv) (c : conn) : kact -> conn -> Prop :=
| t_new id s : find_stream c id = None -> 0 <= id <= max_varint -> fresh_stream K c id s -> (is_server_bidi K id = true -> id <= k_maxid c) -> kst K c (ANew id s) (add_stream K c id s)
| t_recv id s src fin x evs : find_stream c id = Some s -> client_bidi id = true -> (zlen src =? 0) && negb fin = false ->
    recv false (benv_of K c s) (rx_now c s) src fin = XOk x evs -> kst K c (ARecv id src fin evs) (mid c id s x)
| t_resume id s q x evs : pq_empty (k_blk c) = false -> pq_top (k_blk c) = Ok id -> find_stream c id = Some s ->
    ricnt c id <= next_absidx (d_ctx (k_dec c)) -> pq_pop (ricnt_less c) (k_blk c) = Ok q ->
    resume false (benv_of K (kk_blk c q) s) (unblocked c s) = XOk x evs ->
    kst K c (AResume id evs (x_def x - x_def (st_x s))) (mid (kk_blk c q) id (ss_x s (unblocked c s)) x)
| t_resume_gone id s q x evs : pq_empty (k_blk c) = false -> pq_top (k_blk c) = Ok id -> find_stream c id = Some s ->
    ricnt c id <= next_absidx (d_ctx (k_dec c)) -> pq_pop (ricnt_less c) (k_blk c) = Ok q ->
    resume false (benv_of K (kk_blk c q) s) (unblocked c s) = XGone x evs ->
    kst K c (AResume id evs (x_def x - x_def (st_x s))) (mid (kk_blk c q) id (ss_x s (unblocked c s)) x)
| t_priority id s p sch' : find_stream c id = Some s -> client_bidi id = true -> ke_server K = true -> st_pu s = false -> st_sp s = false -> pri_valid p ->
    sc_priority (k_sch c) id p (require s) = Ok sch' -> kst K c (APriority id p) (kk_sch c sch')
| t_update id s p sch' : find_stream c id = Some s -> client_bidi id = true -> ke_server K = true -> pri_valid p -> st_sp s = false ->
    sc_priority (k_sch c) id p (require s) = Ok sch' -> kst K c (AUpdate id p true) (kk_sch (put c id (ss_pu s true)) sch')
| t_update_new id p : find_stream c id = None -> client_bidi id = true -> ke_server K = true -> pri_valid p -> id_range id -> k_queued c && (k_goaway c <=? id) = false -> id <= k_maxid c ->
    kst K c (AUpdate id p false)
      (let c1 := add_stream K c id (ss_pu (new_stream id (rx_init id http_init (k_dec c))) true) in kk_sch c1 (sc_create_pri (k_sch c1) id p))
| t_update_ign id p : client_bidi id = true -> ke_server K = true -> pri_valid p -> (forall s, find_stream c id = Some s -> st_sp s = true) -> kst K c (AUpdateIgn id p) c
| t_control e : (forall id p, e <> CvPriority id p) -> kst K c (AControl e) c
| t_ctl src ctl evs : bytes src -> read_control false (mk_cenv (ke_server K) (k_maxcl c) (ke_sf K)) (k_ctl c) src = ROk ctl evs -> kst K c (ACtl src) (kk_ctl c ctl)
| t_del id s n : find_stream c id = Some s -> b_blk (x_st (st_x s)) = false -> client_bidi id = true \/ st_u s = UUnk \/ (peer_uni K id = true /\ exists rv, st_u s = UNone rv) ->
    (client_bidi id = true -> n_sched (sc_n (k_sch c) id) = false \/ x_closed (st_x s) = true) -> kst K c (ADel id n (st_code s)) (rem_stream K c id)
| t_typing id s rv rv' : find_stream c id = Some s -> peer_uni K id = true -> st_u s = UNone rv -> kst K c (AType id (UNone rv')) (put c id (ss_u s (UNone rv')))
| t_type id s rv v u c1 : find_stream c id = Some s -> peer_uni K id = true -> st_u s = UNone rv -> identify c v = Ok (c1, u) -> kst K c (AType id u) (put c1 id (ss_u s u))
| t_dec src d : dec_change (k_dec c) src d -> kst K c (ADec src) (kk_dec c d)
| t_misc idtr maxid maxcl ndec : idtr_step (k_idtr c) idtr -> k_maxid c <= maxid -> k_maxcl c <= maxcl ->
    kst K c AMisc (kk_ndec (kk_maxcl (kk_maxid (kk_idtr c idtr) maxid) maxcl) ndec)
| t_bind a b d : (k_tctl c = None \/ a = k_tctl c) -> (k_tenc c = None \/ b = k_tenc c) -> (k_tdec c = None \/ d = k_tdec c) ->
    (forall id, a = Some id \/ b = Some id \/ d = Some id -> local_uni K id = true /\ exists s, find_stream c id = Some s /\ critical (st_u s)) -> kst K c (ABind a b d) (kk_tx c a b d)
| t_out id s t : find_stream c id = Some s -> stream_uni id = true -> out_change (ke_tx K id) (st_t s) t -> kst K c (AOut id) (put c id (ss_t s t))
| t_goaway id s g cm : k_tctl c = Some id -> find_stream c id = Some s -> g <= k_goaway c ->
    kst K c (AGoaway g cm) (kk_goaway (put c id (ss_t s (tx_submit (st_t s) [FGoaway g] false))) g true (k_shut c || cm))
| t_fill id s t es c1 s1 sch' : find_stream c id = Some s -> get_next_tx (k_sch c) = Ok (Some id) -> tx_fill (ke_tx K id) (st_t s) = Ok (t, es) ->
    add_ebufs (put c id (ss_t s t)) es = Ok c1 -> find_stream c1 id = Some s1 ->
    (if client_bidi id then sc_offered (k_sch c) id (require s1) else Ok (k_sch c)) = Ok sch' -> kst K c (AFill id) (kk_sch c1 sch')
| t_written id s n t sch' : find_stream c id = Some s -> tx_written (st_t s) n = Ok t ->
    (if client_bidi id then sc_written (k_sch c) id n (require (ss_t s t)) else Ok (k_sch c)) = Ok sch' ->
    kst K c (AWritten id n) (kk_sch (put c id (ss_t s t)) sch')
| t_acked id s t calls : find_stream c id = Some s -> (exists off, update_ack (st_t s) off = Ok (t, calls)) -> kst K c (AAcked id calls) (put c id (ss_t s t))
| t_submit id s nva (dr fin : bool) sch' : find_stream c id = Some s ->
    sc_submit (k_sch c) id (require (ss_t s (tx_submit (st_t s) (TxModel.FHeaders (nva_copy nva) :: (if dr then [TxModel.FData] else [])) fin))) = Ok sch' ->
    kst K c (ASubmit id nva dr fin) (kk_sch (put c id (ss_t s (tx_submit (st_t s) (TxModel.FHeaders (nva_copy nva) :: (if dr then [TxModel.FData] else [])) fin))) sch')
| t_block id s (fc : bool) sch' : find_stream c id = Some s -> (if client_bidi id then sc_block (k_sch c) id else Ok (k_sch c)) = Ok sch' ->
    kst K c (ABlock id fc) (kk_sch (put c id (if fc then ss_fc s true else ss_swr s true)) sch')
| t_wake id s (fc : bool) sch' : find_stream c id = Some s ->
    (if client_bidi id then sc_wake (k_sch c) id (require (if fc then ss_fc s false else ss_t s (tx_resume (st_t s)))) else Ok (k_sch c)) = Ok sch' ->
    kst K c (AWake id fc) (kk_sch (put c id (if fc then ss_fc s false else ss_t s (tx_resume (st_t s)))) sch')
| t_close id s code sch' : find_stream c id = Some s -> (stream_uni id = true -> st_u s = UUnk) -> sc_close (k_sch c) id = Ok sch' ->
    kst K c (AClose id code) (kk_sch (put c id (let s := ss_code s code in if b_blk (x_st (st_x s)) then ss_x s (x_close (st_x s)) else s)) sch')
| t_shut id s d : find_stream c id = Some s -> client_bidi id = true -> x_shut (st_x s) = false -> dec_cancel_stream (k_dec c) id = Ok d ->
    kst K c (AShut id) (kk_dec (put c id (ss_x s (x_shut_rd (st_x s)))) d)
| t_server id s p sch' : find_stream c id = Some s -> client_bidi id = true -> ke_server K = true -> urg_ok (p_urg p) = true -> (p_inc p =? 0) || (p_inc p =? 1) = true ->
    sc_priority (k_sch c) id p (require s) = Ok sch' -> kst K c (AServer id p) (kk_sch (put c id (ss_sp s true)) sch')
| t_offer id s n vs fin : find_stream c id = Some s -> writev (st_t s) n = Ok (vs, fin) -> kst K c (AOffer id vs fin) c
| t_see e : (exists id code, e = KStop id code \/ e = KReset id code) -> kst K c (ASee e) c.
Inductive ksts (K : kenv) : conn -> list kact -> conn -> Prop :=
| ks_nil c : ksts K c [] c
| ks_cons c a c1 l c' : kst K c a c1 -> ksts K c1 l c' -> ksts K c (a :: l) c'.
Definition seen (l : list kact) : list kev := concat (map vis l).
Lemma ksts_app K c l c1 l2 c2 : ksts K c l c1 -> ksts K c1 l2 c2 -> ksts K c (l ++ l2) c2.
Proof. induction 1; cbn; auto. intros. econstructor; eauto. Qed.
Lemma ks_one K c a c' : kst K c a c' -> ksts K c [a] c'.
Proof. intros. econstructor; [eauto|constructor]. Qed.
Lemma seen_app a b : seen (a ++ b) = seen a ++ seen b.
Proof. unfold seen. rewrite map_app, concat_app. reflexivity. Qed.

(* the call an action can come from; a priority taken from a header section is matched with its event below *)
Definition allowed0 (K : kenv) (o : cop) (a : kact) : Prop :=
  match a with
  | ABlock id fc => o = if fc then OBlock id else OShutWrite id
  | AWake id fc => o = if fc then OUnblock id else OResume id
  | AClose id code => o = OClose id code
  | AShut id => o = OShutRead id
  | AServer id p => o = OServerPriority id p
  | AGoaway g cm => (o = if cm then OShutdown else ONotice)
  | ASubmit id nva dr fin => o = ORequest id nva dr \/ o = OResponse id nva dr \/ (dr = false /\ (o = OInfo id nva \/ o = OTrailers id nva))
  | AWritten id n => o = OAddWrite id n
  | AAcked id _ => exists n, o = OAddAck id n \/ o = OUpdateAck id n
  | AFill _ | AOffer _ _ _ => exists n, o = OWritev n
  | ARecv id src fin _ => o = ORead id src fin
  | AType id _ => exists src fin, o = ORead id src fin
  | APriority _ _ => False
  | AResume _ _ _ | AUpdate _ _ _ | AUpdateIgn _ _ | AControl _ | ACtl _ | ASee _ => exists id src fin, o = ORead id src fin
  | ADel id _ _ => (exists id' src fin, o = ORead id' src fin) \/ exists code, o = OClose id code
  | ABind _ _ _ => (exists id, o = OBindControl id) \/ exists a b, o = OBindQpack a b
  | ANew id _ => (exists src fin, o = ORead id src fin) \/ (exists nva dr, o = ORequest id nva dr) \/ o = OBindControl id \/ exists a b, o = OBindQpack a b /\ (id = a \/ id = b)
  | ADec src => match o with ORead _ _ _ => True | OWritev _ | OMaxConcurrent _ | OShutRead _ => src = [] | _ => False end
  | AOut _ => match o with OWritev _ | OBindControl _ | OBindQpack _ _ | OClientPriority _ _ => True | _ => False end
  | AMisc => match o with ORead _ _ _ | OMaxClient _ => True | _ => False end
  end.
Definition allowed (K : kenv) (o : cop) (a : kact) : Prop :=
  match a with APriority _ _ => exists id src fin, o = ORead id src fin | _ => allowed0 K o a end.
Lemma allowed_0 K o a : allowed0 K o a -> allowed K o a.
Proof. destruct a; cbn; auto. intros []. Qed.
Definition decompP (P : Z -> pri -> Prop) (K : kenv) (c : conn) (o : cop) (c' : conn) (evs : list kev) (acts : list kact) : Prop :=
  ksts K c acts c' /\ seen acts = evs /\ Forall (allowed K o) acts /\ (forall id p, In (APriority id p) acts -> P id p).
Definition said (evs : list kev) (id : Z) (p : pri) : Prop := In (KStream id (BvPriority p)) evs.
Definition decomp (K : kenv) (c : conn) (o : cop) (c' : conn) (evs : list kev) (acts : list kact) : Prop := decompP (said evs) K c o c' evs acts.
Lemma dc_nil P K c o : decompP P K c o c [] [].
Proof. repeat split; try constructor. intros ? ? []. Qed.
Lemma dc_app P Q K c o c1 e1 a1 c2 e2 a2 : decompP P K c o c1 e1 a1 -> decompP Q K c1 o c2 e2 a2 -> decompP (fun id p => P id p \/ Q id p) K c o c2 (e1 ++ e2) (a1 ++ a2).
Proof. intros (A & B & C & D) (A' & B' & C' & D'). split; [eapply ksts_app; eauto|]. split; [rewrite seen_app; congruence|]. split; [apply Forall_app; auto|]. intros id p H. apply in_app_iff in H as [H|H]; auto. Qed.
Lemma dc_one P K c o a c' : kst K c a c' -> allowed0 K o a -> decompP P K c o c' (vis a) [a].
Proof. intros H A. split; [apply ks_one; auto|]. split; [unfold seen; cbn; apply app_nil_r|]. split; [auto using allowed_0|]. intros id p [->|[]]. destruct A. Qed.
Lemma dc_prio (P : Z -> pri -> Prop) K c o id p c' : kst K c (APriority id p) c' -> allowed K o (APriority id p) -> P id p -> decompP P K c o c' [] [APriority id p].
Proof. intros H A HP. split; [apply ks_one; auto|]. split; [reflexivity|]. split; [auto|]. intros i q [[= <- <-]|[]]. exact HP. Qed.
Lemma dc_mono (P Q : Z -> pri -> Prop) K c o c' evs acts : decompP P K c o c' evs acts -> (forall id p, P id p -> Q id p) -> decompP Q K c o c' evs acts.
Proof. intros (A & B & C & D) H. repeat split; auto. Qed.
