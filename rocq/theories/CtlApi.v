(* The reader of the peer's control stream along a history of API calls: its state and callbacks are those of
   ControlModel.read_control on the pieces received *)
From Verif Require Import Base BaseLemmas Chunk ConvModel ConvSpec ConvProofs RdVarint QpackTabModel QpackDecModel HttpModel BidiModel BidiHist ControlModel ControlSpec ControlProofs ControlTrace GapModel PqModel TxModel SchedModel ConnModel ConnStep ConnCtl ConnWf ConnDecomp ConnHist ConnRead ConnRecv ConnUni Props_Uni SafeSpec ControlCut SafeCtl SafeMax CtlApiSpec.
Open Scope Z_scope.

Lemma ctl_evs_app a b : control_evs (a ++ b) = control_evs a ++ control_evs b. Proof. apply flat_map_app. Qed.
Lemma ctl_evs_stream id l : control_evs (map (KStream id) l) = []. Proof. induction l; auto. Qed.
Lemma ctl_evs_def id n : control_evs (deferred id n) = []. Proof. unfold deferred. destruct (n =? 0); reflexivity. Qed.
Lemma ctl_evs_ctl l : control_evs (map KControl l) = l. Proof. induction l as [|e l IH]; [reflexivity|]. cbn. f_equal. exact IH. Qed.
Lemma ctl_events_snoc h x : control_events (h ++ [x]) = control_events h ++ control_evs (c_evs x).
Proof. unfold control_events. rewrite flat_map_app. cbn. rewrite app_nil_r. reflexivity. Qed.

Section CtlApi.
Context (K : kenv).
Definition env (n : Z) : cenv := mk_cenv (ke_server K) n (ke_sf K).
(* calls of the reader, each with the limit in force *)
Fixpoint read_all (s : cst) (ps : list (Z * list Z)) : rres cst cev :=
  match ps with
  | [] => ROk s []
  | (n, p) :: r => seq_res (read_control false (env n) s p) (fun s' => read_all s' r)
  end.
Lemma read_all_snoc ps n p : forall s, read_all s (ps ++ [(n, p)]) = seq_res (read_all s ps) (fun s' => read_control false (env n) s' p).
Proof.
  induction ps as [|[m q] ps IH]; intros s; cbn [read_all app].
  - cbn [seq_res]. destruct (read_control false (env n) s p) as [s1 e1|s1 r1 e1|e s1 e1|]; cbn [seq_res rev_ app]; rewrite ?app_nil_r; reflexivity.
  - destruct (read_control false (env m) s q) as [s1 e1|s1 r1 e1|e s1 e1|]; cbn [seq_res]; auto. rewrite IH.
    destruct (read_all s1 ps) as [s2 e2|s2 r2 e2|e s2 e2|]; cbn [seq_res rev_]; auto. destruct (read_control false (env n) s2 p) as [s3 e3|s3 r3 e3|e s3 e3|]; cbn [rev_]; rewrite ?app_assoc; reflexivity.
Qed.
Lemma read_all_const n ps : forall s, Forall (fun q => fst q = n) ps -> read_all s ps = read_pieces (env n) s (map snd ps).
Proof.
  unfold read_pieces. induction ps as [|[m q] ps IH]; intros s F; [reflexivity|]. inversion F as [|? ? E F']; subst. cbn [fst] in F'. cbn [read_all map feed snd fst].
  unfold read_control at 1. destruct (run _ _ _ s q false); cbn [seq_res]; auto. rewrite IH by exact F'. reflexivity.
Qed.

Variable Q : Z -> Prop.
Record CT (c : conn) (hd : Z -> list Z) (evs : list cev) : Prop := mk_CT {
  ct_st : forall id B, peer_uni K id = true -> get_varint (hd id) = Some (0, B) -> exists ps, concat (map snd ps) = B /\ Forall (fun q => Q (fst q)) ps /\ read_all cst_init ps = ROk (k_ctl c) evs;
  ct_new : k_copen c = false -> k_ctl c = cst_init /\ evs = [] }.
Lemma CT_same c c' hd hd' evs : kc c' = kc c -> (forall id B, peer_uni K id = true -> get_varint (hd' id) = Some (0, B) -> get_varint (hd id) = Some (0, B)) -> CT c hd evs -> CT c' hd' evs.
Proof. intros E X [A B]. injection E as E1 E2. split; [intros id w P G; rewrite E1; eauto|rewrite E1, E2; exact B]. Qed.
Lemma drop_ev c id s evs c' rv ev : drop_stream K c id s evs = KOk c' rv ev -> control_evs evs = [] -> control_evs ev = [].
Proof.
  unfold drop_stream. intros H E. assert (X : forall l, l = (if client_bidi id then [KClosed id (st_code s)] else []) -> control_evs (evs ++ l) = []).
  { intros l ->. rewrite ctl_evs_app, E. destruct (client_bidi id); reflexivity. }
  destruct (is_server_bidi K id); [destruct (k_num c <=? 0); [discriminate|]|]; injection H as _ _ <-; apply X; reflexivity.
Qed.
Lemma unblock_ev f : forall c c' rv evs, unblock_loop K f c = KOk c' rv evs -> control_evs evs = [].
Proof.
  induction f as [|f IH]; intros c c' rv evs H; [discriminate|]. cbn [unblock_loop] in H. destruct (pq_empty (k_blk c)); [injection H as _ _ <-; reflexivity|].
  destruct (pq_top (k_blk c)) as [id|e|]; try discriminate. destruct (find_stream c id) as [s|]; [|discriminate]. destruct (next_absidx (d_ctx (k_dec c)) <? ricnt c id); [injection H as _ _ <-; reflexivity|].
  destruct (pq_pop (ricnt_less c) (k_blk c)) as [q|e|]; try discriminate. cbv zeta in H.
  match type of H with match ?r with _ => _ end = _ => destruct r as [x' ev|x' ev|e ev|] end; try discriminate.
  - match type of H with match ?r with _ => _ end = _ => destruct r as [c2|e|] eqn:A end; try discriminate.
    destruct (unblock_loop K f c2) as [c3 rv3 ev3|e ev3|] eqn:L; try discriminate. injection H as _ _ <-. rewrite !ctl_evs_app, (IH _ _ _ _ L), ctl_evs_stream, ctl_evs_def. reflexivity.
  - match type of H with match ?r with _ => _ end = _ => destruct r as [c2|e|] eqn:A end; try discriminate.
    match type of H with match ?r with _ => _ end = _ => destruct r as [c3 rv3 ev3|e ev3|] eqn:D end; try discriminate.
    apply drop_ev in D; [|rewrite ctl_evs_app, ctl_evs_stream, ctl_evs_def; reflexivity].
    destruct (unblock_loop K f c3) as [c4 rv4 ev4|e ev4|] eqn:L; try discriminate. injection H as _ _ <-. rewrite ctl_evs_app, D, (IH _ _ _ _ L). reflexivity.
Qed.
Lemma encoder_ev c src c' rv evs : read_qpack_encoder K c src = KOk c' rv evs -> control_evs evs = [].
Proof.
  unfold read_qpack_encoder. destruct (read_encoder (k_dec c) src) as [d o]. destruct o as [n|e|]; try discriminate.
  destruct (unblock_loop K (S (pq_size (k_blk c))) (kk_dec c d)) as [c2 rv2 ev2|e ev2|] eqn:L; try discriminate. intros [= _ _ <-]. exact (unblock_ev _ _ _ _ _ L).
Qed.
Lemma typed_ev c id s src fin c' n evs : read_uni_typed K c id s src fin = KOk c' n evs -> st_u s <> UCtl -> control_evs evs = [].
Proof.
  unfold read_uni_typed. intros R N. destruct (st_u s); try discriminate; [congruence| | |].
  - destruct fin; [discriminate|]. eapply encoder_ev; eauto.
  - destruct fin; [discriminate|]. destruct (ke_dec K (k_ndec c) src); try discriminate. injection R as _ _ <-. reflexivity.
  - destruct fin; injection R as _ _ <-; reflexivity.
Qed.
Lemma control_all c ps evs0 src c' rv evs : read_all cst_init ps = ROk (k_ctl c) evs0 -> read_control_stream K c src = KOk c' rv evs ->
  read_all cst_init (ps ++ [(k_maxcl c, src)]) = ROk (k_ctl c') (evs0 ++ control_evs evs) /\ k_copen c' = k_copen c.
Proof.
  intros ST H. unfold read_control_stream in H. rewrite read_all_snoc, ST. cbn [seq_res]. unfold env.
  destruct (read_control _ _ _ _) as [s ev|s ev|e x|]; try discriminate. destruct (apply_updates K (kk_ctl c s) ev) as [c2|e|] eqn:A; try discriminate. injection H as <- _ <-.
  apply updates_kc in A. injection A as A1 A2. cbn [rev_]. rewrite A1, ctl_evs_ctl. split; [reflexivity|exact A2].
Qed.
Lemma CT_uni c hd id s src fin c' rv evs evs0 : wf K c -> U K c hd -> CT c hd evs0 -> (forall id, find_stream c id = None -> hd id = []) -> (k_copen c' = true -> Q (k_maxcl c)) ->
  peer_uni K id = true -> bytes src -> find_stream c id = Some s -> (zlen src =? 0) && negb fin = false ->
  uni_read K c id s src fin c' rv evs -> CT c' (ext1 hd id src) (evs0 ++ control_evs evs).
Proof.
  intros W UU CC E QM P B F NE R.
  assert (TY : forall rvi v rest, st_u s = UNone rvi -> rd_varint rvi src fin = VDone v rest -> get_varint (hd id ++ src) = Some (v, rest)).
  { intros rvi v rest Es V. destruct (U_none _ _ _ _ _ _ UU P F Es) as (PR & -> & G).
    assert (src <> []) as NN. { intros ->. unfold rd_varint, read_varint in V. cbn in V. destruct fin; discriminate. }
    destruct (rd_varint_spec (hd id) src fin PR B NN) as [RS RP]. rewrite V in RS. destruct (get_varint (hd id ++ src)) as [[v' r]|] eqn:GV; [|destruct fin; discriminate].
    injection RS as <- <-. reflexivity. }
  assert (KEEP : control_evs evs = [] -> kc c' = kc c -> (forall w, get_varint (hd id ++ src) = Some (0, w) -> get_varint (hd id) = Some (0, w)) -> CT c' (ext1 hd id src) (evs0 ++ control_evs evs)).
  { intros NEV EK X. rewrite NEV, app_nil_r. eapply CT_same; [exact EK| |exact CC]. intros j w Pj G. unfold ext1 in G. destruct (Z.eqb_spec j id) as [->|]; auto. }
  assert (ID : forall v c1 u, identify c v = Ok (c1, u) -> u <> UCtl -> v <> 0 /\ kc c1 = kc c).
  { intros v c1 u I N. unfold identify in I. destruct (v =? 0) eqn:V0; [destruct (k_copen c); [discriminate|injection I as <- <-; congruence]|]. split; [apply Z.eqb_neq; exact V0|].
    destruct (v =? 1); [discriminate|]. destruct (v =? 2); [destruct (k_eopen c); [discriminate|injection I as <- _; reflexivity]|]. destruct (v =? 3); [destruct (k_dopen c); [discriminate|]|]; injection I as <- _; reflexivity. }
  assert (ID0 : forall v c1, identify c v = Ok (c1, UCtl) -> v = 0 /\ k_copen c = false /\ k_ctl c1 = k_ctl c /\ k_copen c1 = true).
  { intros v c1 I. unfold identify in I. destruct (v =? 0) eqn:V0; [destruct (k_copen c) eqn:CO; [discriminate|injection I as <-; apply Z.eqb_eq in V0; auto]|].
    destruct (v =? 1); [discriminate|]. destruct (v =? 2); [destruct (k_eopen c); discriminate|]. destruct (v =? 3); [destruct (k_dopen c); discriminate|discriminate]. }
  (* the stream has just become the control stream *)
  assert (FIRST : forall c1 v w, identify c v = Ok (c1, UCtl) -> get_varint (hd id ++ src) = Some (v, w) ->
    (exists ps, concat (map snd ps) = w /\ Forall (fun q => Q (fst q)) ps /\ read_all cst_init ps = ROk (k_ctl c') (evs0 ++ control_evs evs)) -> k_copen c' = true -> CT c' (ext1 hd id src) (evs0 ++ control_evs evs)).
  { intros c1 v w I G ST CO. destruct (ID0 _ _ I) as (-> & CF & _). split; [|congruence]. intros j w' Pj G'. unfold ext1 in G'. destruct (Z.eqb_spec j id) as [->|NJ]; [rewrite G in G'; injection G' as <-; exact ST|].
    exfalso. destruct (ctl_find K c hd j w' UU E Pj G') as (t & Ft & Ut). assert (flag c UCtl = true) as X by (apply (u_flag _ _ _ UU UCtl ltac:(left; reflexivity)); exists j, t; auto). cbn in X. congruence. }
  destruct R as [rvi c' rv evs Es -> -> L D|rvi rvi' Es NF V|rvi v u c1 Es V I|rvi v rest u c1 c' n evs Es V NR I R|c' n evs N R].
  - apply KEEP; [unfold delete_stream in D; eapply drop_ev; [exact D|apply ctl_evs_def]|eapply drop_kc; exact D|]. intros w G. rewrite app_nil_r in G. exact G.
  - apply KEEP; [reflexivity|reflexivity|]. intros w G. exfalso. destruct (U_none _ _ _ _ _ _ UU P F Es) as (PR & -> & _).
    assert (src <> []) as NN by (intros ->; destruct fin; cbn in NE, NF; discriminate).
    destruct (rd_varint_spec (hd id) src fin PR B NN) as [RS RP]. rewrite V, G in RS. discriminate.
  - pose proof (TY _ _ _ Es V) as G. destruct (utype_eq_ctl u) as [->|NU].
    + destruct (ID0 _ _ I) as (_ & CF & C1 & C2). destruct (ct_new _ _ _ CC CF) as [S0 E0]. eapply FIRST; [exact I|exact G| |exact C2].
      exists []. cbn [map concat read_all control_evs flat_map]. change (k_ctl (put c1 id (ss_u s UCtl))) with (k_ctl c1). rewrite C1, S0, E0. auto.
    + destruct (ID _ _ _ I NU) as [NV EK]. apply KEEP; [reflexivity|exact EK|]. intros w G'. congruence.
  - pose proof (TY _ _ _ Es V) as G. destruct (utype_eq_ctl u) as [->|NU].
    + destruct (ID0 _ _ I) as (_ & CF & C1 & C2). cbn [read_uni_typed st_u ss_u] in R. destruct fin; [discriminate|]. destruct (ct_new _ _ _ CC CF) as [S0 E0].
      destruct (control_all (put c1 id (ss_u s UCtl)) [] evs0 rest c' n evs) as [ST CO]; auto.
      * change (k_ctl (put c1 id (ss_u s UCtl))) with (k_ctl c1). rewrite C1, S0, E0. reflexivity.
      * assert (CT' : k_copen c' = true) by (rewrite CO; exact C2). eapply FIRST; [exact I|exact G| |exact CT']. eexists. split; [|split; [|exact ST]]; [cbn; apply app_nil_r|].
        constructor; [|constructor]. cbn [fst]. change (k_maxcl (put c1 id (ss_u s UCtl))) with (k_maxcl c1). rewrite (identify_mx _ _ _ _ I). auto.
    + destruct (ID _ _ _ I NU) as [NV EK]. apply KEEP; [eapply typed_ev; eauto|rewrite (typed_kc K _ _ _ _ _ _ _ _ R NU); exact EK|]. intros w G'. congruence.
  - assert (BH : bytes (hd id)) by (exact (proj1 (u_typ _ _ _ UU _ _ P F))). destruct (utype_eq_ctl (st_u s)) as [EU|NU].
    + destruct (u_typ _ _ _ UU _ _ P F) as [_ X]. destruct (get_varint (hd id)) as [[v w]|] eqn:G; [|exfalso; destruct X as [_ X]; congruence].
      destruct X as [_ X]. assert (v = 0) as ->. { rewrite EU in X. unfold kind_u in X. destruct (Z.eqb_spec v 0); auto. destruct (v =? 2); [discriminate|]. destruct (v =? 3); discriminate. }
      assert (k_copen c = true) as CO0. { change (flag c UCtl = true). apply (u_flag _ _ _ UU UCtl ltac:(left; reflexivity)). exists id, s. auto. }
      unfold read_uni_typed in R. rewrite EU in R. destruct fin; [discriminate|]. destruct (ct_st _ _ _ CC _ _ P G) as (ps & PC & PQ & PR).
      destruct (control_all c ps evs0 src c' n evs PR R) as [ST CO]. split.
      * intros j w' Pj G'. unfold ext1 in G'. destruct (Z.eqb_spec j id) as [->|NJ].
        { destruct (get_app (hd id) src 0 w BH G) as (G2 & _). rewrite G2 in G'. injection G' as <-. eexists. split; [|split; [|exact ST]].
          - rewrite map_app, concat_app, PC. cbn. rewrite app_nil_r. reflexivity.
          - apply Forall_app. split; [exact PQ|]. constructor; [|constructor]. apply QM. congruence. }
        exfalso. destruct (ctl_find K c hd j w' UU E Pj G') as (t & Ft & Ut). apply NJ. eapply (u_one _ _ _ UU j t id s); eauto; [left; exact Ut|congruence].
      * intros CF. congruence.
    + apply KEEP; [eapply typed_ev; eauto|eapply typed_kc; eauto|]. intros w G. exfalso. destruct (u_typ _ _ _ UU _ _ P F) as [_ X]. destruct (get_varint (hd id)) as [[v w']|] eqn:G1; [|destruct X as [_ X]; eapply N; exact X].
      destruct (get_app (hd id) src v w' BH G1) as (G2 & _). rewrite G2 in G. injection G as -> _. apply NU. exact (proj2 X).
Qed.
Lemma vis_ctl a : (forall id p n, a <> AUpdate id p n) -> (forall id p, a <> AUpdateIgn id p) -> (forall e, a <> AControl e) -> (forall e, a <> ASee e) -> control_evs (vis a) = [].
Proof.
  intros A B C D. destruct a; try reflexivity; cbn [vis]; rewrite ?ctl_evs_app, ?ctl_evs_stream, ?ctl_evs_def; auto; try (exfalso; eapply A; reflexivity); try (exfalso; eapply B; reflexivity); try (exfalso; eapply C; reflexivity); try (exfalso; eapply D; reflexivity).
  - destruct (client_bidi id); reflexivity.
  - clear. induction calls as [|n l IH]; [reflexivity|exact IH].
Qed.
Lemma CT_step c hd o c' rv evs evs0 : wf K c -> op_ok o -> kstep K c o = KOk c' rv evs -> (forall id, find_stream c id = None -> hd id = []) -> (k_copen c' = true -> Q (k_maxcl c)) -> U K c hd -> CT c hd evs0 ->
  CT c' (fun i => hd i ++ heard1 i (mk_call o rv evs c')) (evs0 ++ control_evs evs).
Proof.
  intros W O S E QM UU CC.
  assert (NR : (forall id src fin, o <> ORead id src fin) -> CT c' (fun i => hd i ++ heard1 i (mk_call o rv evs c')) (evs0 ++ control_evs evs)).
  { intros N. destruct (step_decomp _ _ _ _ _ _ W O S) as (acts & D & SE & F & _).
    assert (control_evs evs = []) as ->.
    { rewrite <- SE. clear - F N. induction F as [|a l A F IH]; [reflexivity|]. change (seen (a :: l)) with (vis a ++ seen l). rewrite ctl_evs_app, IH, app_nil_r.
      apply vis_ctl; intros; intros ->; cbn in A; destruct A as (id' & sr & fin & ->); eapply N; eauto. }
    rewrite app_nil_r. eapply CT_same; [| |exact CC].
    - apply (ksts_kc K _ _ _ D). eapply Forall_impl; [|exact F]. intros a A. split; [intros src ->|intros id u ->]; cbn in A; [destruct A as (id & sr & fin & ->)|destruct A as (sr & fin & ->)]; eapply N; eauto.
    - intros id B _ G. unfold heard1 in G. cbn [ConnHist.c_op] in G. destruct o; try (rewrite app_nil_r in G; exact G). exfalso. eapply N; eauto. }
  destruct o; try (apply NR; intros; discriminate). clear NR. cbn [kstep op_ok] in S, O.
  assert (EX : forall hd' e, (forall j, peer_uni K j = true -> hd' j = ext1 hd id src j) -> CT c' hd' e -> CT c' (fun i => hd i ++ heard1 i (mk_call (ORead id src fin) rv evs c')) e).
  { intros hd' e Q0 CD. eapply CT_same; [reflexivity| |exact CD]. intros j w Pj G. rewrite (Q0 _ Pj). unfold ext1, heard1 in *. cbn [ConnHist.c_op] in G. rewrite (Z.eqb_sym id j) in G. destruct (j =? id); auto. rewrite app_nil_r in G. exact G. }
  assert (OK : forall c0 s pre, opened K c id c0 s pre -> kc c0 = kc c /\ k_maxcl c0 = k_maxcl c).
  { intros c0 s pre OP. inversion OP; subst; [auto|rewrite add_kc, add_mx; auto|rewrite add_kc, add_mx; auto]. }
  assert (SAME : forall j, peer_uni K j = true -> j <> id \/ src = [] -> hd j = ext1 hd id src j).
  { intros j _ X. unfold ext1. destruct (Z.eqb_spec j id) as [->|]; [destruct X as [X| ->]; [congruence|rewrite app_nil_r; reflexivity]|reflexivity]. }
  apply read_cases in S as [RG S]. destruct S as [F P -> ->|c0 s pre OP -> ->|c0 s pre c' rv evs OP CB _ R|c0 s c' rv evs OP P NE R].
  - apply (EX hd); [auto|]. cbn [control_evs flat_map]. rewrite app_nil_r. exact CC.
  - apply (EX hd); [auto|]. assert (control_evs pre = []) as -> by (inversion OP; subst; try reflexivity; destruct (rejected c id); reflexivity). rewrite app_nil_r.
    eapply CT_same; [exact (proj1 (OK _ _ _ OP))| |exact CC]. auto.
  - apply (EX hd). { intros j Pj. apply SAME; auto. left. intros ->. eapply peer_not_bidi; eauto. }
    unfold read_request_stream in R. cbv zeta in R. destruct (recv _ _ _ _ _) as [x' ev|x' ev|e ev|]; try discriminate.
    destruct (after_read c0 id s x' ev) as [c2|e|] eqn:A; try discriminate. injection R as <- _ <-.
    assert (control_evs pre = []) as EP by (inversion OP; subst; try reflexivity; destruct (rejected c id); reflexivity). rewrite ctl_evs_app, EP, ctl_evs_stream, app_nil_r.
    eapply CT_same; [| |exact CC]; [|auto]. rewrite <- (proj1 (OK _ _ _ OP)). eapply after_kc; eauto.
  - destruct (OK _ _ _ OP) as [OK1 OK2]. apply (EX (ext1 hd id src)); [auto|]. destruct (U_opened _ _ _ _ _ _ _ P OP (E id) UU) as (U0 & F0 & _).
    apply (CT_uni c0 hd id s src fin c' rv evs); auto; [eapply opened_wfU; eauto|eapply CT_same; [exact OK1| |exact CC]; auto| |].
    + intros j Fj. inversion OP as [s1 F1 _|r g s1 F1 SB _ _|F1 _]; subst; auto.
      * apply E. destruct (Z.eqb_spec j id) as [->|NJ]; auto. change (find_stream (add_stream K (kk_maxid (kk_idtr c g) (Z.max (k_maxid c) id)) id s) j = None) in Fj. rewrite (find_add K) in Fj by exact F1. destruct (j =? id); [discriminate|exact Fj].
      * apply E. rewrite (find_add K) in Fj by exact F1. destruct (j =? id); [discriminate|exact Fj].
    + rewrite OK2. exact QM.
Qed.
Lemma last_limit_snoc ops o : forall n, last_limit n (ops ++ [o]) = match o with OMaxClient m => m | _ => last_limit n ops end.
Proof. induction ops as [|p ops IH]; intros n; [destruct o; reflexivity|]. cbn [last_limit app]. destruct p; apply IH. Qed.
Lemma hist_limit h c : history K h c -> k_maxcl c = stream_limit h.
Proof.
  intros H. revert h c H. refine (hist_inv K (fun h c => k_maxcl c = stream_limit h) eq_refl _).
  intros h c o c' rv evs H W O IH S. unfold stream_limit. rewrite ops_snoc, last_limit_snoc, (step_mx _ _ _ _ _ _ W O S), IH. reflexivity.
Qed.
Lemma hist_CT h c : history K h c -> (forall a x b, h = a ++ x :: b -> (exists id, peer_stream K (a ++ [x]) (c_post x) id 0) -> Q (stream_limit a)) -> CT c (fun id => heard id h) (control_events h).
Proof.
  intros H. revert h c H. refine (hist_inv K (fun h c => (forall a x b, h = a ++ x :: b -> (exists id, peer_stream K (a ++ [x]) (c_post x) id 0) -> Q (stream_limit a)) -> CT c (fun id => heard id h) (control_events h)) _ _).
  - intros _. split; [intros id B _ G; discriminate G|auto].
  - intros h c o c' rv evs H W O CC S LM. pose proof (h_snoc K h c o c' rv evs H O S) as H'.
    assert (LM0 : forall a x b, h = a ++ x :: b -> (exists id, peer_stream K (a ++ [x]) (c_post x) id 0) -> Q (stream_limit a)).
    { intros a x b -> X. eapply (LM a x (b ++ [mk_call o rv evs c'])); [rewrite <- app_assoc; reflexivity|exact X]. }
    assert (QM : k_copen c' = true -> Q (k_maxcl c)).
    { intros CO. rewrite (hist_limit h c H). eapply (LM h _ []); [reflexivity|]. apply (proj1 (flag_peer K _ _ H' 0 (or_introl eq_refl))). exact CO. }
    pose proof (CT_step c (fun i => heard i h) o c' rv evs (control_events h) W O S (fun id => heard_closed K h c id H) QM (hist_U K h c H) (CC LM0)) as R.
    rewrite ctl_events_snoc. cbn [c_evs]. eapply CT_same; [reflexivity| |exact R]. intros id B P G. rewrite heard_snoc in G. destruct (is_open (c_post (mk_call o rv evs c')) id); [exact G|discriminate].
Qed.
Lemma api_pieces h c bs : history K h c -> (forall a x b, h = a ++ x :: b -> (exists id, peer_stream K (a ++ [x]) (c_post x) id 0) -> Q (stream_limit a)) -> control_bytes K h c bs ->
  exists ps, concat (map snd ps) = bs /\ bytes bs /\ Forall (fun q => Q (fst q)) ps /\ read_all cst_init ps = ROk (k_ctl c) (control_events h).
Proof.
  intros H LM CB. pose proof (hist_CT h c H LM) as CC. destruct CB as [(id & PS & ->)|(N & ->)].
  - pose proof PS as (P & _ & T). pose proof (heard_bytes K h c H id P) as HB. unfold stream_type, behind_type in *. rewrite stype_get in * by auto.
    destruct (get_varint (heard id h)) as [[v w]|] eqn:G; [|discriminate]. injection T as ->. destruct (ct_st _ _ _ CC id w P G) as (ps & A & B & D). exists ps. split; [exact A|]. split; [eapply get_bytes; eauto|auto].
  - destruct (k_copen c) eqn:CO. { exfalso. destruct (proj1 (flag_peer K h c H 0 (or_introl eq_refl)) CO) as (id & PS). exact (N id PS). }
    destruct (ct_new _ _ _ CC CO) as [-> ->]. exists []. repeat split; constructor.
Qed.
End CtlApi.
