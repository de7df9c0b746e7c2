(* The peer's control stream along a history: where its reader stands in the bytes received *)
From Verif Require Import Base BaseLemmas Chunk ConvModel ConvProofs RdVarint QpackTabModel QpackDecModel HttpModel BidiModel BidiHist ControlModel ControlSpec ControlTrace GapModel PqModel TxModel SchedModel ConnModel ConnStep ConnCtl ConnWf ConnDecomp ConnHist ConnRead ConnRecv ConnUni SafeSpec ControlCut.
Open Scope Z_scope.

Lemma utype_eq_ctl u : u = UCtl \/ u <> UCtl.
Proof. destruct u; [right; discriminate|left; reflexivity|right; discriminate..]. Qed.
Section SafeCtl.
Context (K : kenv).
(* control state and flag *)
Definition kc (c : conn) := (k_ctl c, k_copen c).
Lemma kst_kc c a c' : kst K c a c' -> (forall src, a <> ACtl src) -> (forall id u, a <> AType id u) -> kc c' = kc c.
Proof.
  assert (MID : forall d i s x, kc (mid d i s x) = kc d) by (intros; unfold mid; destruct (b_blk (x_st x) && negb (b_blk (x_st (st_x s)))); reflexivity).
  assert (ADD : forall d i s, kc (add_stream K d i s) = kc d) by (intros; unfold add_stream; destruct (is_server_bidi K i); reflexivity).
  assert (REM : forall d i, kc (rem_stream K d i) = kc d) by (intros; unfold rem_stream; destruct (is_server_bidi K i); reflexivity).
  intros H N N2. destruct H; rewrite ?ADD, ?REM, ?MID; try reflexivity.
  - cbv zeta. match goal with |- kc (kk_sch ?d _) = _ => change (kc d = kc c) end. apply ADD.
  - exfalso. eapply N; eauto.
  - exfalso. eapply N2; eauto.
  - change (kc c1 = kc c). revert H2. apply (add_ebufs_P (fun x => kc x = kc c)); [|reflexivity]. intros d q sq tq e S _ _ _. exact S.
Qed.
Lemma ksts_kc c l c' : ksts K c l c' -> Forall (fun a => (forall src, a <> ACtl src) /\ (forall id u, a <> AType id u)) l -> kc c' = kc c.
Proof. induction 1; intros F; auto. inversion F as [|? ? [A B] F']; subst. rewrite IHksts by assumption. eapply kst_kc; eauto. Qed.
Lemma add_kc d i s : kc (add_stream K d i s) = kc d. Proof. unfold add_stream; destruct (is_server_bidi K i); reflexivity. Qed.
Lemma after_kc c id s x evs c' : after_read c id s x evs = Ok c' -> kc c' = kc c.
Proof. intros H. rewrite (after_mid _ _ _ _ _ _ H). unfold mid. destruct (b_blk (x_st x) && negb (b_blk (x_st (st_x s)))); reflexivity. Qed.
Lemma drop_kc c id s evs c' rv ev : drop_stream K c id s evs = KOk c' rv ev -> kc c' = kc c.
Proof. unfold drop_stream. destruct (is_server_bidi K id); [destruct (k_num c <=? 0); [discriminate|]|]; intros [= <- _ _]; reflexivity. Qed.
Lemma unblock_kc f : forall c c' rv evs, unblock_loop K f c = KOk c' rv evs -> kc c' = kc c.
Proof.
  induction f as [|f IH]; intros c c' rv evs H; [discriminate|]. cbn [unblock_loop] in H. destruct (pq_empty (k_blk c)); [injection H as <- _ _; reflexivity|].
  destruct (pq_top (k_blk c)) as [id|e|]; try discriminate. destruct (find_stream c id) as [s|]; [|discriminate]. destruct (next_absidx (d_ctx (k_dec c)) <? ricnt c id); [injection H as <- _ _; reflexivity|].
  destruct (pq_pop (ricnt_less c) (k_blk c)) as [q|e|]; try discriminate. cbv zeta in H.
  match type of H with match ?r with _ => _ end = _ => destruct r as [x' ev|x' ev|e ev|] end; try discriminate.
  - match type of H with match ?r with _ => _ end = _ => destruct r as [c2|e|] eqn:A end; try discriminate. apply after_kc in A.
    destruct (unblock_loop K f c2) as [c3 rv3 ev3|e ev3|] eqn:L; try discriminate. injection H as <- _ _. rewrite (IH _ _ _ _ L), A. reflexivity.
  - match type of H with match ?r with _ => _ end = _ => destruct r as [c2|e|] eqn:A end; try discriminate. apply after_kc in A.
    match type of H with match ?r with _ => _ end = _ => destruct r as [c3 rv3 ev3|e ev3|] eqn:D end; try discriminate. apply drop_kc in D.
    destruct (unblock_loop K f c3) as [c4 rv4 ev4|e ev4|] eqn:L; try discriminate. injection H as <- _ _. rewrite (IH _ _ _ _ L), D, A. reflexivity.
Qed.
Lemma encoder_kc c src c' rv evs : read_qpack_encoder K c src = KOk c' rv evs -> kc c' = kc c.
Proof.
  unfold read_qpack_encoder. destruct (read_encoder (k_dec c) src) as [d o]. destruct o as [n|e|]; try discriminate.
  destruct (unblock_loop K (S (pq_size (k_blk c))) (kk_dec c d)) as [c2 rv2 ev2|e ev2|] eqn:L; try discriminate. intros [= <- _ _]. rewrite (unblock_kc _ _ _ _ _ L). reflexivity.
Qed.
Lemma updates_kc evs : forall c c', apply_updates K c evs = Ok c' -> kc c' = kc c.
Proof.
  induction evs as [|e evs IH]; intros c c' H; [injection H as <-; reflexivity|]. destruct e; cbn [apply_updates] in H; try (apply IH; exact H).
  apply obind_ok in H as (c1 & H1 & H). rewrite (IH _ _ H). clear H. unfold on_priority_update in H1. destruct (find_stream c id) as [s|] eqn:F.
  - destruct (st_sp s); [injection H1 as <-; reflexivity|]. cbv zeta in H1. unfold update_priority in H1. destruct (client_bidi id); [|discriminate]. cbn [negb] in H1. unfold sched_do in H1.
    destruct (sc_priority _ _ _ _); try discriminate. injection H1 as <-. reflexivity.
  - destruct (k_queued c && (k_goaway c <=? id)); [injection H1 as <-; reflexivity|]. apply obind_ok in H1 as ([r g] & _ & H1). destruct (negb (r =? 0)).
    + destruct (r =? ERR_STREAM_IN_USE); [|discriminate]. injection H1 as <-. reflexivity.
    + apply obind_ok in H1 as (c2 & C & H1). injection H1 as <-. apply create_ok in C as [_ ->]. change (kc (add_stream K (kk_maxid (kk_idtr c g) (Z.max (k_maxid c) id)) id (ss_pu (new_stream id (rx_init id http_init (k_dec c))) true)) = kc c).
      rewrite add_kc. reflexivity.
Qed.

Record CI (c : conn) (hd : Z -> list Z) : Prop := mk_CI {
  ci_st : forall id B, peer_uni K id = true -> get_varint (hd id) = Some (0, B) -> stands (k_ctl c) B [];
  ci_new : k_copen c = false -> k_ctl c = cst_init }.
Lemma CI_same c c' hd hd' : kc c' = kc c -> (forall id B, peer_uni K id = true -> get_varint (hd' id) = Some (0, B) -> get_varint (hd id) = Some (0, B)) -> CI c hd -> CI c' hd'.
Proof. intros E X [A B]. injection E as E1 E2. split; [intros id w P G; rewrite E1; eauto|rewrite E1, E2; exact B]. Qed.
Lemma control_stands c w src c' rv evs : wf K c -> bytes src -> bytes w -> stands (k_ctl c) w [] -> read_control_stream K c src = KOk c' rv evs -> stands (k_ctl c') (w ++ src) [] /\ k_copen c' = k_copen c.
Proof.
  intros W B BW ST H. unfold read_control_stream in H. pose proof (cut_read (mk_cenv (ke_server K) (k_maxcl c) (ke_sf K)) (k_ctl c) w src (wf_ctl _ _ W) BW B ST) as C.
  destruct (read_control _ _ _ _) as [s ev|s ev|e x|]; try discriminate. destruct (apply_updates K (kk_ctl c s) ev) as [c2|e|] eqn:A; try discriminate. injection H as <- _ _.
  apply updates_kc in A. injection A as A1 A2. rewrite A1. split; [exact C|exact A2].
Qed.
Lemma typed_kc c id s src fin c' n evs : read_uni_typed K c id s src fin = KOk c' n evs -> st_u s <> UCtl -> kc c' = kc c.
Proof.
  intros R N. apply read_typed_shape in R. inversion R as [? ? ? F1 F2 EQ|? ? ? F1 F2 EQ|? F1 F2 EQ|EQ]; subst; [congruence|eapply encoder_kc; eauto|reflexivity|reflexivity].
Qed.
Lemma get_bytes b v r : bytes b -> get_varint b = Some (v, r) -> bytes r.
Proof. intros B G. destruct (get_app b [] v r B G) as (_ & _ & X & _). exact X. Qed.
Lemma ctl_find c hd j B : U K c hd -> (forall id, find_stream c id = None -> hd id = []) -> peer_uni K j = true -> get_varint (hd j) = Some (0, B) -> exists t, find_stream c j = Some t /\ st_u t = UCtl.
Proof.
  intros UU E P G. destruct (find_stream c j) as [t|] eqn:F; [|rewrite (E _ F) in G; discriminate]. exists t. split; [reflexivity|].
  destruct (u_typ _ _ _ UU _ _ P F) as [_ X]. rewrite G in X. exact (proj2 X).
Qed.
Lemma CI_uni c hd id s src fin c' rv evs : wf K c -> U K c hd -> CI c hd -> (forall id, find_stream c id = None -> hd id = []) -> peer_uni K id = true -> bytes src -> find_stream c id = Some s -> (zlen src =? 0) && negb fin = false ->
  uni_read K c id s src fin c' rv evs -> CI c' (ext1 hd id src).
Proof.
  intros W UU CC E P B F NE R.
  assert (TY : forall rvi v rest, st_u s = UNone rvi -> rd_varint rvi src fin = VDone v rest -> get_varint (hd id ++ src) = Some (v, rest)).
  { intros rvi v rest Es V. destruct (U_none _ _ _ _ _ _ UU P F Es) as (PR & -> & G).
    assert (src <> []) as NN. { intros ->. unfold rd_varint, read_varint in V. cbn in V. destruct fin; discriminate. }
    destruct (rd_varint_spec (hd id) src fin PR B NN) as [RS RP]. rewrite V in RS. destruct (get_varint (hd id ++ src)) as [[v' r]|] eqn:GV; [|destruct fin; discriminate].
    injection RS as <- <-. reflexivity. }
  assert (KEEP : kc c' = kc c -> (forall w, get_varint (hd id ++ src) = Some (0, w) -> get_varint (hd id) = Some (0, w)) -> CI c' (ext1 hd id src)).
  { intros EK X. eapply CI_same; [exact EK| |exact CC]. intros j w Pj G. unfold ext1 in G. destruct (Z.eqb_spec j id) as [->|]; auto. }
  assert (ID : forall v c1 u, identify c v = Ok (c1, u) -> u <> UCtl -> v <> 0 /\ kc c1 = kc c).
  { intros v c1 u I N. unfold identify in I. destruct (v =? 0) eqn:V0; [destruct (k_copen c); [discriminate|injection I as <- <-; congruence]|]. split; [apply Z.eqb_neq; exact V0|].
    destruct (v =? 1); [discriminate|]. destruct (v =? 2); [destruct (k_eopen c); [discriminate|injection I as <- _; reflexivity]|]. destruct (v =? 3); [destruct (k_dopen c); [discriminate|]|]; injection I as <- _; reflexivity. }
  assert (ID0 : forall v c1, identify c v = Ok (c1, UCtl) -> v = 0 /\ k_copen c = false /\ k_ctl c1 = k_ctl c /\ k_copen c1 = true).
  { intros v c1 I. unfold identify in I. destruct (v =? 0) eqn:V0; [destruct (k_copen c) eqn:CO; [discriminate|injection I as <-; apply Z.eqb_eq in V0; auto]|].
    destruct (v =? 1); [discriminate|]. destruct (v =? 2); [destruct (k_eopen c); discriminate|]. destruct (v =? 3); [destruct (k_dopen c); discriminate|discriminate]. }
  (* the stream has just become the control stream *)
  assert (FIRST : forall c1 v w, identify c v = Ok (c1, UCtl) -> get_varint (hd id ++ src) = Some (v, w) -> stands (k_ctl c') w [] -> k_copen c' = true -> CI c' (ext1 hd id src)).
  { intros c1 v w I G ST CO. destruct (ID0 _ _ I) as (-> & CF & _). split; [|congruence]. intros j w' Pj G'. unfold ext1 in G'. destruct (Z.eqb_spec j id) as [->|NJ]; [congruence|].
    exfalso. destruct (ctl_find c hd j w' UU E Pj G') as (t & Ft & Ut). assert (flag c UCtl = true) as X by (apply (u_flag _ _ _ UU UCtl ltac:(left; reflexivity)); exists j, t; auto). cbn in X. congruence. }
  destruct R as [rvi c' rv evs Es -> -> L D|rvi rvi' Es NF V|rvi v u c1 Es V I|rvi v rest u c1 c' n evs Es V NR I R|c' n evs N R].
  - apply KEEP; [eapply drop_kc; exact D|]. intros w G. rewrite app_nil_r in G. exact G.
  - apply KEEP; [reflexivity|]. intros w G. exfalso. destruct (U_none _ _ _ _ _ _ UU P F Es) as (PR & -> & _).
    assert (src <> []) as NN by (intros ->; destruct fin; cbn in NE, NF; discriminate).
    destruct (rd_varint_spec (hd id) src fin PR B NN) as [RS RP]. rewrite V, G in RS. discriminate.
  - pose proof (TY _ _ _ Es V) as G. destruct (utype_eq_ctl u) as [->|NU].
    + eapply FIRST; [exact I|exact G| |]; destruct (ID0 _ _ I) as (_ & CF & C1 & C2); [change (stands (k_ctl c1) [] []); rewrite C1, (ci_new _ _ CC CF); apply stands_init; constructor|exact C2].
    + destruct (ID _ _ _ I NU) as [NV EK]. apply KEEP; [exact EK|]. intros w G'. congruence.
  - pose proof (TY _ _ _ Es V) as G. destruct (utype_eq_ctl u) as [->|NU].
    + destruct (ID0 _ _ I) as (_ & CF & C1 & C2). cbn [read_uni_typed st_u ss_u] in R. destruct fin; [discriminate|].
      destruct (control_stands (put c1 id (ss_u s UCtl)) [] rest c' n evs) as [ST CO]; auto.
      * eapply wf_type; eauto.
      * eapply bytes_rest; eauto.
      * constructor.
      * change (stands (k_ctl c1) [] []). rewrite C1, (ci_new _ _ CC CF). apply stands_init. constructor.
      * eapply FIRST; [exact I|exact G|exact ST|]. rewrite CO. exact C2.
    + destruct (ID _ _ _ I NU) as [NV EK]. apply KEEP; [rewrite (typed_kc _ _ _ _ _ _ _ _ R NU); exact EK|]. intros w G'. congruence.
  - assert (BH : bytes (hd id)) by (exact (proj1 (u_typ _ _ _ UU _ _ P F))). destruct (utype_eq_ctl (st_u s)) as [EU|NU].
    + destruct (u_typ _ _ _ UU _ _ P F) as [_ X]. destruct (get_varint (hd id)) as [[v w]|] eqn:G; [|exfalso; destruct X as [_ X]; congruence].
      destruct X as [_ X]. assert (v = 0) as ->. { rewrite EU in X. unfold kind_u in X. destruct (Z.eqb_spec v 0); auto. destruct (v =? 2); [discriminate|]. destruct (v =? 3); discriminate. }
      unfold read_uni_typed in R. rewrite EU in R. destruct fin; [discriminate|].
      destruct (control_stands c w src c' n evs W B (get_bytes _ _ _ BH G) (ci_st _ _ CC _ _ P G) R) as [ST CO]. split.
      * intros j w' Pj G'. unfold ext1 in G'. destruct (Z.eqb_spec j id) as [->|NJ].
        { destruct (get_app (hd id) src 0 w BH G) as (G2 & _). rewrite G2 in G'. injection G' as <-. exact ST. }
        exfalso. destruct (ctl_find c hd j w' UU E Pj G') as (t & Ft & Ut). apply NJ. eapply (u_one _ _ _ UU j t id s); eauto; [left; exact Ut|congruence].
      * intros CF. exfalso. assert (flag c UCtl = true) as Y by (apply (u_flag _ _ _ UU UCtl ltac:(left; reflexivity)); exists id, s; auto). cbn in Y. congruence.
    + apply KEEP; [eapply typed_kc; eauto|]. intros w G. exfalso. destruct (u_typ _ _ _ UU _ _ P F) as [_ X]. destruct (get_varint (hd id)) as [[v w']|] eqn:G1; [|destruct X as [_ X]; eapply N; exact X].
      destruct (get_app (hd id) src v w' BH G1) as (G2 & _). rewrite G2 in G. injection G as -> _. apply NU. exact (proj2 X).
Qed.
Lemma CI_step c hd o c' rv evs : wf K c -> op_ok o -> kstep K c o = KOk c' rv evs -> (forall id, find_stream c id = None -> hd id = []) -> U K c hd -> CI c hd ->
  CI c' (fun i => hd i ++ heard1 i (mk_call o rv evs c')).
Proof.
  intros W O S E UU CC.
  assert (NR : (forall id src fin, o <> ORead id src fin) -> CI c' (fun i => hd i ++ heard1 i (mk_call o rv evs c'))).
  { intros N. destruct (step_decomp _ _ _ _ _ _ W O S) as (acts & D & _ & F & _). eapply CI_same; [| |exact CC].
    - apply (ksts_kc _ _ _ D). eapply Forall_impl; [|exact F]. intros a A. split; [intros src ->|intros id u ->]; cbn in A; [destruct A as (id & sr & fin & ->)|destruct A as (sr & fin & ->)]; eapply N; eauto.
    - intros id B _ G. unfold heard1 in G. cbn [ConnHist.c_op] in G. destruct o; try (rewrite app_nil_r in G; exact G). exfalso. eapply N; eauto. }
  destruct o; try (apply NR; intros; discriminate). clear NR. cbn [kstep op_ok] in S, O.
  assert (EX : forall hd', (forall j, peer_uni K j = true -> hd' j = ext1 hd id src j) -> CI c' hd' -> CI c' (fun i => hd i ++ heard1 i (mk_call (ORead id src fin) rv evs c'))).
  { intros hd' Q CD. eapply CI_same; [reflexivity| |exact CD]. intros j w Pj G. rewrite (Q _ Pj). unfold ext1, heard1 in *. cbn [ConnHist.c_op] in G. rewrite (Z.eqb_sym id j) in G. destruct (j =? id); auto. rewrite app_nil_r in G. exact G. }
  assert (OK : forall c0 s pre, opened K c id c0 s pre -> kc c0 = kc c).
  { intros c0 s pre OP. inversion OP; subst; [reflexivity|rewrite add_kc; reflexivity|apply add_kc]. }
  apply read_cases in S as [RG S]. destruct S as [F P -> ->|c0 s pre OP -> ->|c0 s pre c' rv evs OP CB _ R|c0 s c' rv evs OP P NE R].
  - apply (EX hd); [|exact CC]. intros j _. unfold ext1. destruct (j =? id); auto. rewrite app_nil_r. reflexivity.
  - apply (EX hd). { intros j _. unfold ext1. destruct (j =? id); auto. rewrite app_nil_r. reflexivity. } eapply CI_same; [eapply OK; eauto| |exact CC]. auto.
  - apply (EX hd). { intros j Pj. unfold ext1. destruct (Z.eqb_spec j id) as [->|]; auto. exfalso. eapply peer_not_bidi; eauto. }
    eapply CI_same; [| |exact CC]; [|auto]. rewrite <- (OK _ _ _ OP). unfold read_request_stream in R. cbv zeta in R. destruct (recv _ _ _ _ _) as [x' ev|x' ev|e ev|]; try discriminate.
    destruct (after_read c0 id s x' ev) as [c2|e|] eqn:A; try discriminate. injection R as <- _ _. eapply after_kc; eauto.
  - apply (EX (ext1 hd id src)); [auto|]. destruct (U_opened _ _ _ _ _ _ _ P OP (E id) UU) as (U0 & F0 & _).
    apply (CI_uni c0 hd id s src fin c' rv evs); auto; [eapply opened_wfU; eauto|eapply CI_same; [eapply OK; eauto| |exact CC]; auto|].
    intros j Fj. inversion OP as [s1 F1 _|r g s1 F1 SB _ _|F1 _]; subst; auto.
    + apply E. destruct (Z.eqb_spec j id) as [->|NJ]; auto. change (find_stream (add_stream K (kk_maxid (kk_idtr c g) (Z.max (k_maxid c) id)) id s) j = None) in Fj. rewrite (find_add K) in Fj by exact F1. destruct (j =? id); [discriminate|exact Fj].
    + apply E. rewrite (find_add K) in Fj by exact F1. destruct (j =? id); [discriminate|exact Fj].
Qed.
Theorem hist_C h c : history K h c -> CI c (fun id => heard id h).
Proof.
  intros H. revert h c H. refine (hist_inv K (fun h c => CI c (fun id => heard id h)) _ _).
  - split; [intros id B _ G; discriminate G|reflexivity].
  - intros h c o c' rv evs H W O CC S. pose proof (CI_step c _ o c' rv evs W O S (fun id => heard_closed K h c id H) (hist_U K h c H) CC) as R.
    eapply CI_same; [reflexivity| |exact R]. intros id B P G. rewrite heard_snoc in G. destruct (is_open (c_post (mk_call o rv evs c')) id); [exact G|discriminate].
Qed.
End SafeCtl.
