(* C28: the peer's unidirectional streams *)
From Verif Require Import Base BaseLemmas ConvModel ConvSpec ConvProofs RdVarint QpackTabModel QpackDecModel HttpModel BidiModel BidiHist ControlModel GapModel PqModel TxModel SchedModel ConnModel ConnStep ConnCtl ConnWf ConnDecomp ConnHist ConnRead ConnUni ConnDemo.
Open Scope Z_scope.

(* the type at the start of the bytes of a unidirectional stream, RFC 9114 6.2: a variable-length integer *)
Definition stream_type (b : list Z) : option Z := option_map fst (rfc_varint b).
(* what follows it *)
Definition behind_type (b : list Z) : list Z := match rfc_varint b with Some (_, rest) => rest | None => [] end.
(* RFC 9114 6.2.1, RFC 9204 4.2: control, encoder and decoder stream *)
Definition critical_type (v : Z) : Prop := v = 0 \/ v = 2 \/ v = 3.
(* [heard id h]: the bytes of stream id received since it was opened *)
Definition peer_stream (K : kenv) (h : list kcall) (c : conn) (id v : Z) : Prop :=
  peer_uni K id = true /\ find_stream c id <> None /\ stream_type (heard id h) = Some v.

Lemma stype_get b : bytes b -> rfc_varint b = get_varint b. Proof. intros. symmetry. apply get_varint_rfc; auto. Qed.
Lemma kind_crit v : critical_type v -> critical (kind_u v).
Proof. intros [->|[->| ->]]; unfold critical; cbn; auto. Qed.
Lemma kind_inj v w : critical_type v -> kind_u w = kind_u v -> w = v.
Proof. unfold kind_u. intros [->|[->| ->]]; cbn; destruct (Z.eqb_spec w 0), (Z.eqb_spec w 2), (Z.eqb_spec w 3); congruence. Qed.
Section S.
Context (K : kenv) (h : list kcall) (c : conn) (H : history K h c).
Lemma peer_u id v : peer_stream K h c id v <-> peer_uni K id = true /\ exists s, find_stream c id = Some s /\ stream_type (heard id h) = Some v /\ st_u s = kind_u v /\ v <> 1.
Proof.
  unfold peer_stream. split.
  - intros (P & F & T). split; auto. destruct (find_stream c id) as [s|] eqn:E; [|congruence]. exists s. split; auto. split; auto.
    destruct (u_typ _ _ _ (hist_U K h c H) id s P E) as [B TY]. unfold stream_type in T. rewrite stype_get in T by auto. destruct (get_varint (heard id h)) as [[w r]|]; [|discriminate]. injection T as <-. cbn. tauto.
  - intros (P & s & F & T & _). repeat split; auto. congruence.
Qed.
Lemma heard_bytes id : peer_uni K id = true -> bytes (heard id h).
Proof.
  intros P. destruct (find_stream c id) as [s|] eqn:F; [apply (u_typ _ _ _ (hist_U K h c H) id s P F)|]. rewrite (heard_closed K h c id H F). constructor.
Qed.
Lemma flag_peer v : critical_type v -> flag c (kind_u v) = true <-> exists j, peer_stream K h c j v.
Proof.
  intros C. rewrite (u_flag _ _ _ (hist_U K h c H) _ (kind_crit v C)). split.
  - intros (j & s & P & F & E). exists j. split; auto. split; [congruence|]. destruct (u_typ _ _ _ (hist_U K h c H) j s P F) as [B TY]. unfold stream_type. rewrite stype_get by auto.
    destruct (get_varint (heard j h)) as [[w r]|]; cbn.
    + destruct TY as [_ TY]. rewrite E in TY. f_equal. symmetry in TY. apply kind_inj in TY; auto.
    + exfalso. destruct TY as [_ TY]. rewrite E in TY. pose proof (kind_crit v C) as [A|[A|A]]; congruence.
  - intros (j & PS). apply peer_u in PS as (P & s & F & T & E & _). eauto.
Qed.
(* the stream that is read: as it is, or a new one *)
Lemma read_peer id src fin : peer_uni K id = true -> id_range id -> exists c0 s, (c0 = c /\ find_stream c id = Some s \/ find_stream c id = None /\ c0 = add_stream K c id s /\ s = fresh c id) /\
  kstep K c (ORead id src fin) = (if (match find_stream c id with None => true | _ => false end) && (zlen src =? 0) && fin then KOk c 0 [] else read_existing K c0 id s src fin).
Proof.
  intros P RG. cbn [kstep]. unfold read_stream. unfold id_range in RG. destruct ((id <? 0) || (max_varint <? id)) eqn:R; [exfalso; lia|].
  destruct (find_stream c id) as [s|] eqn:F.
  - exists c, s. split; auto. fold (peer_uni K id). rewrite P, orb_true_r. reflexivity.
  - exists (add_stream K c id (fresh c id)), (fresh c id). split; [right; auto|]. assert (is_server_bidi K id = false) as ->.
    { unfold is_server_bidi. destruct (client_bidi id) eqn:B; [|apply andb_false_r]. pose proof (bidi_uni id B); pose proof (peer_is_uni K id P); congruence. }
    fold (peer_uni K id). rewrite P. cbn [andb]. destruct ((zlen src =? 0) && fin); auto. unfold create_stream. rewrite F. fold (fresh c id).
    assert (is_server_bidi K id = false) as SB. { unfold is_server_bidi. destruct (client_bidi id) eqn:B; [|apply andb_false_r]. pose proof (bidi_uni id B); pose proof (peer_is_uni K id P); congruence. }
    unfold add_stream. rewrite SB. reflexivity.
Qed.
Lemma read_uni_eq id src fin c0 s : peer_uni K id = true -> (zlen src =? 0) && negb fin = false -> read_existing K c0 id s src fin = read_uni K c0 id s src fin.
Proof. intros P NE. unfold read_existing. rewrite NE, (peer_is_uni K id P). reflexivity. Qed.
Lemma flag_c0 id c0 s : (c0 = c /\ find_stream c id = Some s \/ find_stream c id = None /\ c0 = add_stream K c id s /\ s = fresh c id) -> forall u, flag c0 u = flag c u.
Proof. intros [[-> _]|(_ & -> & _)] u; auto. unfold add_stream. destruct (is_server_bidi K id), u; reflexivity. Qed.
Lemma typed_c0 id c0 s : peer_uni K id = true -> (c0 = c /\ find_stream c id = Some s \/ find_stream c id = None /\ c0 = add_stream K c id s /\ s = fresh c id) -> typed_as (heard id h) (st_u s) /\ find_stream c0 id = Some s.
Proof.
  intros P [[-> F]|(F & -> & ->)].
  - split; auto. apply (u_typ _ _ _ (hist_U K h c H) id s P F).
  - rewrite (heard_closed K h c id H F). split; [|rewrite find_add, Z.eqb_refl; auto]. split; [constructor|]. cbn. split; [split; [constructor|exact I]|reflexivity].
Qed.
(* a read that completes the type *)
Lemma completing id src fin c0 s v rest : peer_uni K id = true -> bytes src -> typed_as (heard id h) (st_u s) ->
  get_varint (heard id h) = None -> get_varint (heard id h ++ src) = Some (v, rest) ->
  read_uni K c0 id s src fin = match identify c0 v with
    | Ok (c1, u) => if zlen rest =? 0 then KOk (put c1 id (ss_u s u)) (zlen src - zlen rest) []
                    else match read_uni_typed K (put c1 id (ss_u s u)) id (ss_u s u) rest fin with KOk c n evs => KOk c (zlen src - zlen rest + n) evs | r => r end
    | Err e => KDead e []
    | Abort => KAbort
    end.
Proof.
  intros P B T G G2. destruct T as [TB T]. rewrite G in T. destruct T as [PR E]. assert (NN : src <> []) by (intros ->; rewrite app_nil_r in G2; congruence).
  destruct (rd_varint_spec (heard id h) src fin PR B NN) as [RS _]. rewrite G2 in RS. unfold read_uni. rewrite E.
  assert ((zlen src =? 0) && fin = false) as -> by (destruct src; [congruence|]; rewrite zlen_cons; pose proof (zlen_nonneg _ src); destruct (Z.eqb_spec (1 + zlen src) 0); [lia|reflexivity]).
  unfold read_type. rewrite RS. destruct (identify c0 v) as [[c1 u]| |]; reflexivity.
Qed.
End S.

(* ---- C28 ---- *)
Theorem C28_one_each : forall K h c i j v, history K h c -> peer_stream K h c i v -> peer_stream K h c j v -> critical_type v -> i = j.
Proof.
  intros K h c i j v H A B C. apply (peer_u K h c H) in A as (Pi & s & Fi & _ & Ei & _). apply (peer_u K h c H) in B as (Pj & t & Fj & _ & Ej & _).
  eapply (u_one _ _ _ (hist_U K h c H) i s j t); eauto; [rewrite Ei; apply kind_crit; auto|congruence].
Qed.
Theorem C28_no_push : forall K h c i, history K h c -> ~ peer_stream K h c i 1.
Proof. intros K h c i H A. apply (peer_u K h c H) in A as (_ & s & _ & _ & _ & N). congruence. Qed.
(* the type is complete: a push stream, or a second stream of a critical type *)
Theorem C28_refused : forall K h c id src fin v, history K h c -> peer_uni K id = true -> id_range id -> bytes src ->
  stream_type (heard id h) = None -> stream_type (heard id h ++ src) = Some v ->
  v = 1 \/ (critical_type v /\ exists j, peer_stream K h c j v) ->
  kstep K c (ORead id src fin) = KDead ERR_H3_STREAM_CREATION_ERROR [].
Proof.
  intros K h c id src fin v H P RG B T T2 V. pose proof (heard_bytes K h c H id P) as HB. unfold stream_type in *. rewrite stype_get in T by auto. rewrite stype_get in T2 by (apply Forall_app; auto).
  destruct (get_varint (heard id h)) as [?|] eqn:G; [discriminate|]. destruct (get_varint (heard id h ++ src)) as [[w rest]|] eqn:G2; [|discriminate]. injection T2 as ->.
  destruct (read_peer K c id src fin P RG) as (c0 & s & OP & ->). assert (NN : src <> []) by (intros ->; rewrite app_nil_r in G2; congruence).
  assert (ZN : (zlen src =? 0) = false) by (destruct src; [congruence|]; rewrite zlen_cons; pose proof (zlen_nonneg _ src); lia).
  rewrite ZN, andb_false_r, read_uni_eq by (auto; rewrite ZN; auto). cbn [andb]. destruct (typed_c0 K h c H id c0 s P OP) as [TY F0].
  rewrite (completing K h id src fin c0 s v rest) by auto.
  destruct V as [->|[CV J]]; [reflexivity|]. apply (flag_peer K h c H v CV) in J. rewrite <- (flag_c0 K c id c0 s OP) in J. unfold identify. destruct CV as [->|[->| ->]]; cbn in J |- *; rewrite J; reflexivity.
Qed.
(* the first stream of a critical type, and any of another type, is taken whatever the pieces in which the type comes *)
Theorem C28_accepted : forall K h c id src v, history K h c -> peer_uni K id = true -> id_range id -> bytes src ->
  stream_type (heard id h) = None -> stream_type (heard id h ++ src) = Some v -> behind_type (heard id h ++ src) = [] ->
  v <> 1 -> (critical_type v -> forall j, ~ peer_stream K h c j v) ->
  exists c', kstep K c (ORead id src false) = KOk c' (zlen src) [] /\ peer_stream K (h ++ [mk_call (ORead id src false) (zlen src) [] c']) c' id v.
Proof.
  intros K h c id src v H P RG B T T2 BT V1 V2. pose proof (heard_bytes K h c H id P) as HB. unfold stream_type, behind_type in *. rewrite stype_get in T by auto. rewrite stype_get in T2, BT by (apply Forall_app; auto).
  destruct (get_varint (heard id h)) as [?|] eqn:G; [discriminate|]. destruct (get_varint (heard id h ++ src)) as [[w rest]|] eqn:G2; [|discriminate]. injection T2 as ->. subst rest.
  destruct (read_peer K c id src false P RG) as (c0 & s & OP & KS). assert (NN : src <> []) by (intros ->; rewrite app_nil_r in G2; congruence).
  assert (ZN : (zlen src =? 0) = false) by (destruct src; [congruence|]; rewrite zlen_cons; pose proof (zlen_nonneg _ src); lia).
  rewrite ZN, andb_false_r, read_uni_eq in KS by (auto; rewrite ZN; auto). cbn [andb] in KS. destruct (typed_c0 K h c H id c0 s P OP) as [TY F0].
  rewrite (completing K h id src false c0 s v []) in KS by auto.
  assert (exists c1 u, identify c0 v = Ok (c1, u)) as (c1 & u & I).
  { unfold identify. destruct (Z.eqb_spec v 0) as [->|]; [|destruct (Z.eqb_spec v 1); [congruence|]; destruct (Z.eqb_spec v 2) as [->|]; [|destruct (Z.eqb_spec v 3) as [->|]; [|eauto]]].
    - assert (k_copen c0 = false) as ->; [|eauto]. change (flag c0 (kind_u 0) = false). rewrite (flag_c0 K c id c0 s OP). apply not_true_iff_false. rewrite (flag_peer K h c H) by (red; auto). intros [j J]. eapply V2; [left; auto|exact J].
    - assert (k_eopen c0 = false) as ->; [|eauto]. change (flag c0 (kind_u 2) = false). rewrite (flag_c0 K c id c0 s OP). apply not_true_iff_false. rewrite (flag_peer K h c H) by (red; auto). intros [j J]. eapply V2; [right; left; auto|exact J].
    - assert (k_dopen c0 = false) as ->; [|eauto]. change (flag c0 (kind_u 3) = false). rewrite (flag_c0 K c id c0 s OP). apply not_true_iff_false. rewrite (flag_peer K h c H) by (red; auto). intros [j J]. eapply V2; [right; right; auto|exact J]. }
  rewrite I in KS. change (zlen [] =? 0) with true in KS. cbv iota in KS. change (zlen []) with 0 in KS. rewrite Z.sub_0_r in KS.
  eexists. split; [exact KS|]. destruct (identify_kind _ _ _ _ I) as (_ & _ & _ & _ & FI).
  assert (F : find_stream (put c1 id (ss_u s u)) id = Some (ss_u s u)) by (eapply find_put_same; rewrite FI; eauto).
  split; auto. split; [congruence|]. rewrite heard_snoc. unfold is_open. cbn [c_post]. rewrite F. unfold heard1. cbn [ConnHist.c_op]. rewrite Z.eqb_refl. unfold stream_type. rewrite stype_get by (apply Forall_app; auto). rewrite G2. reflexivity.
Qed.
(* a critical stream must not end.  [behind]: the FIN comes with the type known before, or with bytes behind the type *)
Theorem C28_end_refused : forall K h c id src v, history K h c -> peer_uni K id = true -> id_range id -> bytes src ->
  stream_type (heard id h ++ src) = Some v -> critical_type v ->
  stream_type (heard id h) = Some v \/ (behind_type (heard id h ++ src) <> [] /\ forall j, ~ peer_stream K h c j v) ->
  kstep K c (ORead id src true) = KDead ERR_H3_CLOSED_CRITICAL_STREAM [].
Proof.
  intros K h c id src v H P RG B T CV BH. pose proof (heard_bytes K h c H id P) as HB. unfold stream_type, behind_type in *. rewrite (stype_get (heard id h)) in BH by auto. rewrite stype_get in T, BH by (apply Forall_app; auto).
  destruct (read_peer K c id src true P RG) as (c0 & s & OP & ->). destruct (typed_c0 K h c H id c0 s P OP) as [TY F0].
  destruct (get_varint (heard id h ++ src)) as [[w rest]|] eqn:G2; [|discriminate]. injection T as ->.
  destruct (get_varint (heard id h)) as [[w r]|] eqn:G.
  - assert (w = v) as ->. { pose proof (get_varint_app (heard id h) src HB) as GA. rewrite G in GA. destruct GA as (GA & _). rewrite GA in G2. injection G2 as -> _. auto. }
    assert (find_stream c id <> None) as FN by (intros F; rewrite (heard_closed K h c id H F) in G; discriminate). destruct (find_stream c id); [|congruence]. cbn [andb].
    rewrite read_uni_eq by (auto; apply andb_false_r). destruct TY as [_ TY]. rewrite G in TY. destruct TY as [_ E]. unfold read_uni, read_uni_typed. rewrite E. destruct CV as [->|[->| ->]]; reflexivity.
  - destruct BH as [BH|[BH J]]; [discriminate|].
    assert (NN : src <> []) by (intros ->; rewrite app_nil_r in G2; congruence).
    assert (ZN : (zlen src =? 0) = false) by (destruct src; [congruence|]; rewrite zlen_cons; pose proof (zlen_nonneg _ src); lia).
    rewrite ZN, andb_false_r, read_uni_eq by (auto; rewrite ZN; auto). cbn [andb]. rewrite (completing K h id src true c0 s v rest) by auto.
    assert (ZR : (zlen rest =? 0) = false) by (destruct rest; [congruence|]; rewrite zlen_cons; pose proof (zlen_nonneg _ rest); lia). rewrite ZR.
    assert (FL : flag c0 (kind_u v) = false). { rewrite (flag_c0 K c id c0 s OP). apply not_true_iff_false. rewrite (flag_peer K h c H v CV). intros [j X]. exact (J j X). }
    unfold identify. destruct CV as [->|[->| ->]]; cbn in FL |- *; rewrite FL; reflexivity.
Qed.
(* nothing changes but the stream itself *)
Definition only_stream (id : Z) (c c' : conn) : Prop :=
  (forall j, j <> id -> find_stream c' j = find_stream c j) /\ (k_sch c' = k_sch c \/ k_sch c' = sc_create (k_sch c) id) /\ kk_sch (kk_str c' (k_str c)) (k_sch c) = c.
(* a stream of unknown type: whatever comes on it is consumed, the peer is told to stop unless it has ended, nothing else happens *)
Theorem C28_unknown_ignored : forall K h c id src fin v, history K h c -> peer_uni K id = true -> id_range id -> bytes src ->
  (zlen src =? 0) && negb fin = false -> stream_type (heard id h ++ src) = Some v -> ~ critical_type v -> v <> 1 ->
  exists c' evs, kstep K c (ORead id src fin) = KOk c' (zlen src) evs /\ only_stream id c c' /\ incl evs [KStop id H3_STREAM_CREATION_ERROR].
Proof.
  intros K h c id src fin v H P RG B NE T CV V1. pose proof (heard_bytes K h c H id P) as HB. unfold stream_type in *. rewrite stype_get in T by (apply Forall_app; auto).
  destruct (read_peer K c id src fin P RG) as (c0 & s & OP & KS). destruct (typed_c0 K h c H id c0 s P OP) as [TY F0].
  assert (OS : forall t, only_stream id c (put c0 id t)).
  { intros t. destruct OP as [[-> F]|(F & -> & ->)].
    - split; [intros; apply find_put_other; auto|]. split; [left; reflexivity|]. destruct c; reflexivity.
    - split; [intros j N; rewrite find_put_other, find_add by auto; destruct (Z.eqb_spec j id); congruence|]. unfold add_stream.
      assert (is_server_bidi K id = false) as SB. { unfold is_server_bidi. destruct (client_bidi id) eqn:BB; [|apply andb_false_r]. pose proof (bidi_uni id BB); pose proof (peer_is_uni K id P); congruence. }
      rewrite SB. split; [right; reflexivity|]. destruct c; reflexivity. }
  assert (KU : kind_u v = UUnk). { unfold kind_u. destruct (Z.eqb_spec v 0); [elim CV; red; auto|]. destruct (Z.eqb_spec v 2); [elim CV; red; auto|]. destruct (Z.eqb_spec v 3); [elim CV; red; auto|auto]. }
  destruct (get_varint (heard id h ++ src)) as [[w rest]|] eqn:G2; [|discriminate]. injection T as ->.
  destruct (get_varint (heard id h)) as [[w r]|] eqn:G.
  - assert (w = v) as ->. { pose proof (get_varint_app (heard id h) src HB) as GA. rewrite G in GA. destruct GA as (GA & _). rewrite GA in G2. injection G2 as -> _. auto. }
    assert (find_stream c id <> None) as FN by (intros F; rewrite (heard_closed K h c id H F) in G; discriminate). destruct (find_stream c id) as [s'|] eqn:F; [|congruence]. cbn [andb] in KS.
    rewrite read_uni_eq in KS by auto. destruct TY as [_ TY]. rewrite G in TY. destruct TY as [_ E]. rewrite KU in E. unfold read_uni, read_uni_typed in KS. rewrite E in KS.
    rewrite <- (put_same c0 id s F0) in KS. eexists _, _. split; [exact KS|]. split; [apply OS|]. destruct fin; [intros x []|apply incl_refl].
  - assert (NN : src <> []) by (intros ->; rewrite app_nil_r in G2; congruence).
    assert (ZN : (zlen src =? 0) = false) by (destruct src; [congruence|]; rewrite zlen_cons; pose proof (zlen_nonneg _ src); lia).
    rewrite ZN, andb_false_r, read_uni_eq in KS by auto. cbn [andb] in KS. rewrite (completing K h id src fin c0 s v rest) in KS by auto.
    assert (I : identify c0 v = Ok (c0, UUnk)). { unfold identify. destruct (Z.eqb_spec v 0); [elim CV; red; auto|]. destruct (Z.eqb_spec v 1); [congruence|]. destruct (Z.eqb_spec v 2); [elim CV; red; auto|]. destruct (Z.eqb_spec v 3); [elim CV; red; auto|auto]. }
    rewrite I in KS. destruct (Z.eqb_spec (zlen rest) 0) as [Z0|Z0].
    + rewrite Z0, Z.sub_0_r in KS. eexists _, _. split; [exact KS|]. split; [apply OS|intros x []].
    + unfold read_uni_typed in KS. cbn [st_u ss_u] in KS. replace (zlen src - zlen rest + zlen rest) with (zlen src) in KS by lia.
      eexists _, _. split; [exact KS|]. split; [apply OS|]. destruct fin; [intros x []|apply incl_refl].
Qed.
(* the stream ends inside its type *)
Theorem C28_cut_type : forall K h c id src, history K h c -> peer_uni K id = true -> id_range id -> bytes src ->
  stream_type (heard id h ++ src) = None -> heard id h ++ src <> [] -> kstep K c (ORead id src true) = KDead ERR_H3_GENERAL_PROTOCOL_ERROR [].
Proof.
  intros K h c id src H P RG B T NE. pose proof (heard_bytes K h c H id P) as HB. unfold stream_type in *. rewrite stype_get in T by (apply Forall_app; auto).
  destruct (read_peer K c id src true P RG) as (c0 & s & OP & ->). destruct (typed_c0 K h c H id c0 s P OP) as [TY F0].
  destruct (get_varint (heard id h ++ src)) as [?|] eqn:G2; [discriminate|].
  assert (G : get_varint (heard id h) = None). { pose proof (get_varint_app (heard id h) src HB) as GA. destruct (get_varint (heard id h)) as [[w r]|]; auto. destruct GA as (GA & _). congruence. }
  destruct TY as [_ TY]. rewrite G in TY. destruct TY as [PR E]. destruct src as [|b src].
  - rewrite app_nil_r in *. assert (find_stream c id <> None) as FN by (intros F; apply NE; apply (heard_closed K h c id H F)). destruct (find_stream c id); [|congruence]. cbn [andb].
    rewrite read_uni_eq by auto. unfold read_uni. rewrite E. change ((zlen [] =? 0) && true) with true. cbv iota.
    destruct (Z.eqb_spec (rv_left (rv_after (heard id h))) 0) as [L|L]; [|reflexivity]. exfalso.
    destruct (heard id h) as [|b l]; [congruence|]. destruct PR as [_ PL]. cbn [rv_after rv_left] in L. rewrite zlen_cons in L. cbn [length] in PL. unfold zlen in L. lia.
  - assert (ZN : (zlen (b :: src) =? 0) = false) by (rewrite zlen_cons; pose proof (zlen_nonneg _ src); lia).
    rewrite ZN, andb_false_r, read_uni_eq by (auto; rewrite ZN; auto). cbn [andb]. unfold read_uni. rewrite E, ZN. cbn [andb]. unfold read_type.
    destruct (rd_varint_spec (heard id h) (b :: src) true PR B) as [RS _]; [discriminate|]. rewrite G2 in RS. rewrite RS. reflexivity.
Qed.
(* nghttp3_conn_close_stream of such a stream *)
Theorem C28_close_refused : forall K h c id v code, history K h c -> peer_stream K h c id v -> critical_type v -> kstep K c (OClose id code) = KDead ERR_H3_CLOSED_CRITICAL_STREAM [].
Proof.
  intros K h c id v code H PS CV. apply (peer_u K h c H) in PS as (P & s & F & _ & E & _). cbn [kstep]. unfold close_stream. rewrite F, (peer_is_uni K id P), E. destruct CV as [->|[->| ->]]; reflexivity.
Qed.
(* the three streams and one of unknown type, the types in pieces *)
Definition ops28 : list cop := [ORead 2 [64] false; ORead 6 [2] false; ORead 10 [] false; ORead 2 [0; 4; 0] false; ORead 10 [128; 0; 0] false; ORead 10 [3] false; ORead 14 [33; 1; 2; 3] false; ORead 18 [64] false].
Example C28_applies : history (demo true) (demo_h true ops28) (demo_end true ops28) /\
  (peer_stream (demo true) (demo_h true ops28) (demo_end true ops28) 2 0 /\ peer_stream (demo true) (demo_h true ops28) (demo_end true ops28) 6 2 /\ peer_stream (demo true) (demo_h true ops28) (demo_end true ops28) 10 3 /\
   peer_stream (demo true) (demo_h true ops28) (demo_end true ops28) 14 33) /\
  stream_type (heard 18 (demo_h true ops28)) = None /\ stream_type (heard 18 (demo_h true ops28) ++ [0]) = Some 0 /\
  kstep (demo true) (demo_end true ops28) (ORead 18 [0] false) = KDead ERR_H3_STREAM_CREATION_ERROR [] /\
  kstep (demo true) (demo_end true ops28) (ORead 22 [1] false) = KDead ERR_H3_STREAM_CREATION_ERROR [] /\
  kstep (demo true) (demo_end true ops28) (ORead 6 [] true) = KDead ERR_H3_CLOSED_CRITICAL_STREAM [] /\
  kstep (demo true) (demo_end true ops28) (ORead 18 [] true) = KDead ERR_H3_GENERAL_PROTOCOL_ERROR [].
Proof.
  split; [apply demo_ok; vm_compute; reflexivity|]. split; [|repeat split; vm_compute; reflexivity].
  unfold peer_stream. repeat split; try (vm_compute; reflexivity); vm_compute; discriminate.
Qed.
(* without the condition on where the FIN comes: a FIN that comes with the last byte of the type goes unnoticed *)
Theorem C28_end_with_type_refused_refuted : exists K h c id src v c', history K h c /\ peer_uni K id = true /\ id_range id /\ bytes src /\
  stream_type (heard id h ++ src) = Some v /\ critical_type v /\ (forall j, ~ peer_stream K h c j v) /\ kstep K c (ORead id src true) = KOk c' (zlen src) [].
Proof.
  destruct (kstep (demo true) (conn_init (demo true)) (ORead 2 [0] true)) as [c' rv evs| |] eqn:S; [|vm_compute in S; discriminate S|vm_compute in S; discriminate S].
  exists (demo true), [], (conn_init (demo true)), 2, [0], 0, c'. split; [constructor|]. split; [reflexivity|]. split; [unfold id_range; vm_compute; split; discriminate|].
  split; [constructor; [unfold is_byte; lia|constructor]|]. split; [reflexivity|]. split; [left; reflexivity|]. split; [intros j (_ & F & _); apply F; reflexivity|].
  rewrite S. vm_compute in S. injection S as _ <- <-. reflexivity.
Qed.
(* RFC 9114 6.2: a stream closed before its type is known must be tolerated; the connection is given up instead *)
Theorem C28_close_untyped_refuted : exists K h c id, history K h c /\ peer_uni K id = true /\ find_stream c id <> None /\ stream_type (heard id h) = None /\
  kstep K c (OClose id 0) = KDead ERR_H3_CLOSED_CRITICAL_STREAM [].
Proof.
  exists (demo true), (demo_h true [ORead 2 [64] false]), (demo_end true [ORead 2 [64] false]), 2. split; [apply demo_ok; vm_compute; reflexivity|].
  repeat split; try (vm_compute; reflexivity). vm_compute. discriminate.
Qed.
Print Assumptions C28_one_each.
Print Assumptions C28_no_push.
Print Assumptions C28_refused.
Print Assumptions C28_accepted.
Print Assumptions C28_end_refused.
Print Assumptions C28_unknown_ignored.
Print Assumptions C28_cut_type.
Print Assumptions C28_close_refused.
Print Assumptions C28_end_with_type_refused_refuted.
Print Assumptions C28_close_untyped_refuted.
