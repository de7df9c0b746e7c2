(* C23: what is observed on a request stream follows the message grammar of TraceSpec.v *)
From Coq Require Import String.
From Verif Require Import Base BaseLemmas ConvModel RdVarint QpackIntModel QpackTabModel QpackTabSpec QpackTabProofs QpackDecModel QpackDecProofs
  QpackHistModel QpackHistProofs HttpModel HttpSpec HttpHist HttpProofs HttpResProofs Chunk Chunk2 BidiModel BidiHist BidiProofs BidiRun
  SecSuffix BidiSpec BidiCut SecGood TraceSpec TraceHttp.
Open Scope Z_scope.

Lemma leads_app r a e1 b e2 c : leads r a e1 b -> leads r b e2 c -> leads r a (e1 ++ e2) c.
Proof. induction 1; cbn; auto. intros. econstructor; eauto. Qed.
Lemma leads_one r a e b : next r a e b -> leads r a [e] b.
Proof. intros. econstructor; eauto. constructor. Qed.
Lemma leads_pre r a e1 e2 c : leads r a (e1 ++ e2) c -> exists b, leads r a e1 b.
Proof.
  revert a. induction e1 as [|e e1 IH]; intros a; cbn; [eexists; constructor|]. intros H. inversion H as [|? ? ? ? ? N L]; subst.
  destruct (IH _ L) as [b B]. exists b. econstructor; eauto.
Qed.
Lemma leads_data r hs l : forall n, 0 <= n -> (forall k, 0 <= k <= n + zlen l -> declared Z.le r (map fl hs) k) ->
  leads r (InBody hs n) (map BvData l) (InBody hs (n + zlen l)).
Proof.
  induction l as [|b l IH]; intros n N D; cbn [map]; [rewrite zlen_nil, Z.add_0_r; constructor|].
  rewrite zlen_cons in *. pose proof (zlen_nonneg _ l). econstructor; [constructor; apply D; lia|].
  replace (n + (1 + zlen l)) with (n + 1 + zlen l) by lia. apply IH; [lia|]. intros; apply D; lia.
Qed.
Lemma leads_fields r l : forall hs, leads r (InHead hs) (map BvHeader l) (InHead (hs ++ l)).
Proof.
  induction l as [|f l IH]; intros hs; cbn [map]; [rewrite app_nil_r; constructor|].
  econstructor; [constructor|]. replace (hs ++ f :: l) with ((hs ++ [f]) ++ l) by (rewrite <- app_assoc; reflexivity). apply IH.
Qed.
Lemma leads_tfields r hs n l : forall ts, leads r (InTrail hs n ts) (map BvTrailer l) (InTrail hs n (ts ++ l)).
Proof.
  induction l as [|f l IH]; intros ts; cbn [map]; [rewrite app_nil_r; constructor|].
  econstructor; [constructor|]. replace (ts ++ f :: l) with ((ts ++ [f]) ++ l) by (rewrite <- app_assoc; reflexivity). apply IH.
Qed.

Section Link.
Variables (r : role) (sf : sfparser).
Definition rreq : bool := match r with Server _ _ => true | Client _ => false end.
Definition rext : bool := match r with Server e _ => e | Client _ => false end.
Definition start (h : http) : Prop := match r with Server _ _ => h = http_init | Client req => awaiting sf req h end.
Definition link_body (h : http) (st : stage) : Prop := exists hs n, st = InBody hs n /\ in_body r (map fl hs) n h.
Definition linkp (ph : hphase) (h : http) (st : stage) : Prop :=
  match ph with
  | HpInitial => st = AtStart /\ start h
  | HpHeadersBegin => exists hs l h1, st = InHead hs /\ start h1 /\ Forall good_field l /\
      on_headers sf h1 l rreq false rext = (h, hs, true)
  | HpHeadersEnd => (st = AtStart /\ rreq = false /\ start h /\ h_final h = true /\ h_code h = -1) \/ link_body h st
  | HpDataBegin | HpDataEnd => link_body h st
  | HpTrailersBegin => exists hs n ts l h1, st = InTrail hs n ts /\ in_body r (map fl hs) n h1 /\ Forall good_field l /\
      on_headers sf h1 l rreq true rext = (h, ts, true)
  | HpTrailersEnd => exists hs n, st = AfterTrail hs n /\ in_body r (map fl hs) n h
  | HpEnd => st = Complete
  end.
Definition link (s : bst) (st : stage) : Prop :=
  match b_rd s with FIgnRest => st = Refused | _ => linkp (b_ph s) (b_http s) st end.
Definition Rl (s : bst) (ev : list bev) (s' : bst) : Prop :=
  forall st, link s st -> exists st', leads r st ev st' /\ link s' st'.
Definition Ql (s : bst) (ev : list bev) : Prop := forall st, link s st -> exists st', leads r st ev st'.
Definition RQ (s : bst) (x : sres bst bev) : Prop :=
  match x with SGo s' _ _ ev | SStop s' _ ev | SMore s' ev => Rl s ev s' | SErr _ _ ev => Ql s ev | SAbort => True end.
Lemma Rl_refl s : Rl s [] s.
Proof. intros st L. exists st. split; [constructor|auto]. Qed.
Lemma Rl_trans s1 e1 s2 e2 s3 : Rl s1 e1 s2 -> Rl s2 e2 s3 -> Rl s1 (e1 ++ e2) s3.
Proof. intros A B st L. destruct (A _ L) as (st1 & L1 & K1). destruct (B _ K1) as (st2 & L2 & K2). exists st2. split; [eapply leads_app; eauto|auto]. Qed.
Lemma Ql_trans s1 e1 s2 e2 : Rl s1 e1 s2 -> Ql s2 e2 -> Ql s1 (e1 ++ e2).
Proof. intros A B st L. destruct (A _ L) as (st1 & L1 & K1). destruct (B _ K1) as (st2 & L2). exists st2. eapply leads_app; eauto. Qed.
Lemma Ql_nil s : Ql s [].
Proof. intros st L. exists st. constructor. Qed.

Lemma at_frame_unknown ph h st ty n : at_frame ph -> linkp ph h st -> ty <> 0 -> ty <> 1 -> ~ In ty forbidden_frames ->
  next r st (BvFrame ty n) st.
Proof.
  intros A L T0 T1 NF. constructor; auto.
  destruct ph; try contradiction; cbn [linkp] in L.
  - destruct L as [-> _]; auto.
  - destruct L as [[-> _]|(? & ? & -> & _)]; auto.
  - destruct L as (? & ? & -> & _); auto.
  - destruct L as (? & ? & -> & _); auto.
  - subst; auto.
Qed.
Lemma refused_spec ty : refused ty = false -> ~ In ty forbidden_frames.
Proof.
  unfold refused, forbidden_frames. intros H. repeat (apply orb_false_iff in H as [H ?]).
  unfold FRAME_PUSH_PROMISE, FRAME_CANCEL_PUSH, FRAME_SETTINGS, FRAME_GOAWAY, FRAME_MAX_PUSH_ID, FRAME_PRIORITY_UPDATE, FRAME_PRIORITY_UPDATE_PUSH_ID in *.
  cbn [In]. rewrite ?Z.eqb_neq in *. intuition lia.
Qed.
Lemma data_begin ph h st ph' : linkp ph h st -> transit rreq ph h HeDataBegin = Ok ph' -> ph' = HpDataBegin /\ link_body h st.
Proof.
  intros L T. split; [eapply transit_data; eauto|]. destruct ph; cbn [transit] in T; try discriminate; cbn [linkp] in L; auto.
  destruct L as [(-> & R0 & _ & F & _)|L]; auto. rewrite R0, F in T. discriminate.
Qed.
Lemma headers_begin ph h st ph' : linkp ph h st -> transit rreq ph h HeHeadersBegin = Ok ph' ->
  (ph' = HpHeadersBegin /\ st = AtStart /\ start h) \/
  (ph' = HpTrailersBegin /\ exists hs n, st = InBody hs n /\ in_body r (map fl hs) n h /\ ~ tunnel r (map fl hs)).
Proof.
  intros L T.
  assert (TU : forall hs n, in_body r (map fl hs) n h ->
    (if rreq then h_connect h else h_connect h && (Z.quot (h_code h) 100 =? 2)) = false -> ~ tunnel r (map fl hs)).
  { intros hs n B C X. pose proof (ib_tunnel _ _ _ _ B) as IT. unfold rreq in C. destruct r; apply IT in X; congruence. }
  destruct ph; cbn [transit] in T; try discriminate; cbn [linkp] in L.
  - destruct L as [-> L]. injection T as <-. auto.
  - destruct L as [(-> & R0 & ST & F & C)|(hs & n & -> & B)].
    + rewrite R0, C in T. cbn in T. injection T as <-. auto.
    + assert (NC : negb rreq && (h_code h =? -1) = false).
      { unfold rreq. pose proof (ib_code _ _ _ _ B) as IC. destruct r; cbn; auto. lia. }
      rewrite NC in T. destruct (if rreq then _ else _) eqn:C; [discriminate|]. injection T as <-. right. split; [auto|]. exists hs, n. eauto.
  - destruct L as (hs & n & -> & B). destruct (if rreq then _ else _) eqn:C; [discriminate|]. injection T as <-. right. split; [auto|]. exists hs, n. eauto.
Qed.
Lemma msg_end ph h st ph' : linkp ph h st -> transit rreq ph h HeMsgEnd = Ok ph' -> ph' = HpEnd /\ leads r st [BvEndStream] Complete.
Proof.
  intros L T.
  destruct ph; cbn [transit] in T; try discriminate; cbn [linkp] in L;
    (destruct (on_remote_end_stream h) eqn:O; [|discriminate]; injection T as <-; split; [auto|]; apply leads_one).
  - destruct L as [(-> & R0 & ST & F & C)|(hs & n & -> & B)]; [unfold on_remote_end_stream in O; rewrite F in O; discriminate|].
    apply nx_end_b. eapply in_body_end; eauto.
  - destruct L as (hs & n & -> & B). apply nx_end_b. eapply in_body_end; eauto.
  - destruct L as (hs & n & -> & B). apply nx_end_a. eapply in_body_end; eauto.
Qed.

Lemma frame_start_link E s v rest c : env_of r sf E -> b_inv s -> b_rd s = FLen -> RQ s (frame_start E s v rest c).
Proof.
  intros EV Hi Rd. assert (RE : e_req E = rreq) by (destruct EV as [_ EV]; unfold rreq; destruct r; tauto).
  pose proof (bi_ph _ Hi) as P. unfold ph_ok in P. rewrite Rd in P.
  assert (LK : forall st, link s st -> linkp (b_ph s) (b_http s) st) by (unfold link; rewrite Rd; auto).
  unfold frame_start. rewrite RE. cbv zeta.
  destruct (b_ty s =? FRAME_DATA) eqn:T0.
  { apply Z.eqb_eq in T0. rewrite T0. destruct (transit rreq (b_ph s) (b_http s) HeDataBegin) as [ph|e|] eqn:T; cbn [RQ]; auto; [|apply Ql_nil].
    assert (X : forall s', b_rd s' <> FIgnRest -> (b_ph s' = HpDataBegin \/ b_ph s' = HpDataEnd) -> b_http s' = b_http s -> Rl s [BvFrame FRAME_DATA v] s').
    { intros s' R' P' H' st L. destruct (data_begin _ _ _ _ (LK _ L) T) as [-> LB]. destruct LB as (hs & n & -> & B).
      exists (InBody hs n). split; [apply leads_one; apply nx_dataframe|]. unfold link. rewrite H'.
      assert (link_body (b_http s) (InBody hs n)) by (exists hs, n; auto). destruct (b_rd s'); try congruence; destruct P' as [-> | ->]; auto. }
    pose proof (transit_data _ _ _ _ T) as ->.
    destruct (v =? 0); [cbn [transit]|]; cbn [RQ]; apply X; cbn; auto; discriminate. }
  destruct (b_ty s =? FRAME_HEADERS) eqn:T1.
  { apply Z.eqb_eq in T1. rewrite T1. change FRAME_HEADERS with 1.
    destruct (transit rreq (b_ph s) (b_http s) HeHeadersBegin) as [ph|e|] eqn:T; cbn [RQ]; auto; [|apply Ql_nil].
    destruct (v =? 0) eqn:V0.
    - apply Z.eqb_eq in V0. subst v.
      destruct (transit_headers _ _ _ _ T) as [-> | ->]; cbn [empty_headers_allowed transit RQ]; [apply Ql_nil|].
      intros st L. destruct (headers_begin _ _ _ _ (LK _ L) T) as [(X & _)|(_ & hs & n & -> & B & NT)]; [discriminate|].
      exists (AfterTrail hs n). split; [apply leads_one; apply nx_trailers0; auto|]. unfold link. cbn. exists hs, n. auto.
    - apply Z.eqb_neq in V0. destruct (transit_headers _ _ _ _ T) as [-> | ->]; cbn [RQ]; intros st L;
        (destruct (headers_begin _ _ _ _ (LK _ L) T) as [(X & -> & ST)|(X & hs & n & -> & B & NT)]; try discriminate); clear X.
      + exists (InHead []). split; [econstructor; [apply nx_headers; auto|apply leads_one; constructor]|].
        unfold link. cbn [b_rd b_setrd b_ph b_http linkp]. exists [], [], (b_http s). auto.
      + exists (InTrail hs n []). split; [econstructor; [apply nx_trailers; auto|apply leads_one; constructor; auto]|].
        unfold link. cbn [b_rd b_setrd b_ph b_http linkp]. exists hs, n, [], [], (b_http s). auto. }
  destruct (refused (b_ty s)) eqn:RF; cbn [RQ b_fail]; [apply Ql_nil|].
  intros st L. exists st. split; [|unfold link; cbn; apply LK; auto].
  apply leads_one. eapply at_frame_unknown; eauto; [apply Z.eqb_neq; exact T0|apply Z.eqb_neq; exact T1|apply refused_spec; auto].
Qed.
Lemma data_link E s p : env_of r sf E -> b_inv s -> b_rd s = FData -> p <> [] -> RQ s (data_step true E s p).
Proof.
  intros EV Hi Rd NE. pose proof (bi_ph _ Hi) as P. unfold ph_ok in P. rewrite Rd in P. destruct P as [P LP].
  assert (LK : forall st, link s st -> link_body (b_http s) st) by (unfold link; rewrite Rd, P; auto).
  assert (ZP : 0 < zlen p) by (destruct p; [congruence|rewrite zlen_cons; pose proof (zlen_nonneg _ p); lia]).
  unfold data_step. cbv zeta. set (n := Z.min (b_left s) (zlen p)).
  assert (ZN : zlen (firstn (Z.to_nat n) p) = n) by (unfold zlen in *; rewrite firstn_length; lia).
  destruct (on_data_chunk (b_http s) n) as [h ok] eqn:OD. destruct ok.
  - assert (X : forall s', b_rd s' <> FIgnRest -> (b_ph s' = HpDataBegin \/ b_ph s' = HpDataEnd) -> b_http s' = h -> Rl s (map BvData (firstn (Z.to_nat n) p)) s').
    { intros s' R' P' H' st L. destruct (LK _ L) as (hs & m & -> & B). destruct (in_body_chunk _ _ _ _ n _ B ltac:(lia) OD) as [B' D].
      exists (InBody hs (m + n)). split.
      - rewrite <- ZN at 2. apply leads_data; [destruct (ib_n _ _ _ _ B); lia|]. rewrite ZN. apply D. lia.
      - unfold link. rewrite H'. assert (link_body h (InBody hs (m + n))) by (exists hs, (m + n); auto).
        destruct (b_rd s'); try congruence; destruct P' as [-> | ->]; auto. }
    rewrite P. destruct (b_left s - n =? 0); [cbn [transit]|]; cbn [RQ]; apply X; cbn; auto; discriminate.
  - cbn [RQ b_fail]. intros st L. destruct (LK _ L) as (hs & m & -> & B).
    set (k := firstn (fits (b_http s)) (firstn (Z.to_nat n) p)). exists (InBody hs (m + zlen k)). apply leads_data; [destruct (ib_n _ _ _ _ B); lia|].
    intros j J. pose proof (ib_fin _ _ _ _ B) as F. destruct (ib_n _ _ _ _ B) as [N0 NR].
    apply (ib_le _ _ _ _ B); [lia|]. right. unfold on_data_chunk in OD. injection OD as _ OD. cbn [h_final hs_recv h_clen h_recv] in OD. rewrite F in OD.
    apply negb_false_iff in OD. cbn [orb] in OD. apply andb_true_iff in OD as [OD1 OD2]. apply negb_true_iff, Z.eqb_neq in OD1.
    assert (KL : zlen k <= h_clen (b_http s) - m).
    { unfold k, fits. rewrite F, NR. pose proof (ib_clen _ _ _ _ B). unfold zlen. rewrite firstn_length. lia. }
    lia.
Qed.
Lemma informational_dec connect l : wf_response connect l -> informational l \/ ~ informational l.
Proof.
  intros W. destruct (rs_status _ _ W) as (v & V & _). destruct (Z.eq_dec (num v / 100) 1) as [Q|Q]; [left; exists v; auto|right].
  intros (v' & V' & Q'). rewrite V in V'. injection V' as <-. auto.
Qed.
Lemma malformed_link s s0 h p evs st st1 : link s st -> leads r st evs st1 ->
  match st1 with InHead _ | InTrail _ _ _ => True | _ => False end ->
  match malformed s0 h p evs with
  | SMore s' ev => exists st', leads r st ev st' /\ link s' st' | _ => False end.
Proof.
  intros L LD K. unfold malformed. exists Refused. split; [|reflexivity]. eapply leads_app; [exact LD|].
  destruct st1; try contradiction; (econstructor; [constructor|apply leads_one; constructor]).
Qed.
Lemma headers_end_link E s h sc d p rest c evs st :
  env_of r sf E -> b_inv s -> b_rd s = FHeaders -> link s st ->
  (exists st1, leads r st evs st1 /\ linkp (b_ph s) h st1) ->
  match headers_end E s h sc d p rest c evs with
  | SGo s' _ _ ev | SMore s' ev => exists st', leads r st ev st' /\ link s' st'
  | SAbort => True
  | _ => False
  end.
Proof.
  intros EV Hi Rd L (st1 & LD & L1). assert (RE : e_req E = rreq) by (destruct EV as [_ EV]; unfold rreq; destruct r; tauto).
  pose proof (bi_ph _ Hi) as P. unfold ph_ok in P. rewrite Rd in P.
  unfold headers_end. rewrite RE. destruct P as [P|P]; rewrite P in *; cbn [linkp] in L1; cbv zeta.
  - destruct L1 as (hs & l & h1 & -> & ST & G & OH).
    destruct (if rreq then on_request_headers h else on_response_headers h) as [h' ok] eqn:OR.
    destruct ok; [|eapply malformed_link; eauto; exact Logic.I].
    cbn [transit]. rewrite app_assoc.
    assert (LP : leads r st (evs ++ (if negb false && rreq && h_prio h' && negb (e_nopri E) then [BvPriority (h_pri h')] else [])) (InHead hs)).
    { eapply leads_app; [exact LD|]. unfold rreq, rext, start in *. destruct r as [ext sf'|req]; [|rewrite !andb_false_r; constructor].
      destruct (negb false && true && h_prio h' && negb (e_nopri E)) eqn:PR; [|constructor].
      apply andb_true_iff in PR as [PR _]. apply andb_true_iff in PR as [_ PR].
      assert (A : accept_request sf ext l = Some (h', hs)). { unfold accept_request. rewrite <- ST, OH, OR. reflexivity. }
      destruct EV as [_ (_ & _ & ->)]. eapply ld_cons; [|constructor]. eapply nx_prio; [reflexivity|]. eapply request_priority; eauto. }
    unfold rreq, rext, start in *. destruct r as [ext sf'|req] eqn:RR.
    + assert (A : accept_request sf ext l = Some (h', hs)). { unfold accept_request. rewrite <- ST, OH, OR. reflexivity. }
      pose proof (request_in_body sf' _ _ _ _ _ G A) as B.
      exists (InBody hs 0). split; [eapply leads_app; [exact LP|]; apply leads_one; apply nx_final; exact (ib_final _ _ _ _ B)|].
      unfold link. cbn [b_rd b_ph b_http linkp]. right. exists hs, 0. rewrite RR. auto.
    + assert (A : accept_response sf h1 l = Some (h', hs)). { unfold accept_response. rewrite OH, OR. reflexivity. }
      pose proof (awaiting_fresh _ _ _ ST) as FR. destruct (accept_response_sound _ _ _ _ _ _ _ G FR A) as (W & _ & SI & _).
      destruct (informational_dec _ _ W) as [IN|NI].
      * destruct (SI IN) as [FR' FN]. exists AtStart. split; [eapply leads_app; [exact LP|]; apply leads_one; apply nx_interim; split; auto|].
        unfold link. cbn [b_rd b_ph b_http linkp]. left. unfold start, rreq. rewrite RR. destruct FR' as (_ & FC & _).
        repeat (split; [auto; fail|]). split; [eapply aw_next; eauto|auto].
      * pose proof (response_in_body _ _ _ _ _ _ ST G A NI) as B.
        exists (InBody hs 0). split; [eapply leads_app; [exact LP|]; apply leads_one; apply nx_final; exact (ib_final _ _ _ _ B)|].
        unfold link. cbn [b_rd b_ph b_http linkp]. right. exists hs, 0. rewrite RR. auto.
  - destruct L1 as (hs & n & ts & l & h1 & -> & B & G & OH). cbn [transit negb andb app].
    destruct (trailers_sound _ _ _ _ _ _ _ G OH) as [W _]. pose proof (trailers_keep _ _ _ _ _ _ _ G OH) as SC.
    exists (AfterTrail hs n). split; [eapply leads_app; [exact LD|]; apply leads_one; apply nx_end_t; auto|].
    unfold link. cbn [b_rd b_ph b_http linkp]. exists hs, n. split; [auto|]. eapply in_body_core; eauto.
Qed.
Lemma headers_link E s p : env_of r sf E -> b_inv s -> b_rd s = FHeaders -> bytes p -> RQ s (headers_step E s p).
Proof.
  intros EV Hi Rd B. assert (RE : e_req E = rreq /\ e_ext E = rext /\ e_sf E = sf).
  { destruct EV as [EV1 EV]. unfold rreq, rext. destruct r; tauto. } destruct RE as (RE1 & RE2 & RE3).
  pose proof (bi_ph _ Hi) as P. unfold ph_ok in P. rewrite Rd in P. pose proof (bi_left _ Hi) as L0.
  unfold headers_step. cbv zeta. set (n := Z.min (b_left s) (zlen p)).
  destruct (headers_split s p L0 B) as (B1 & B2 & _). fold n in B1, B2.
  destruct (dsec_good (b_dec s) (b_sctx s) (firstn (Z.to_nat n) p) (n =? b_left s) (bi_dec _ Hi) (bi_bad _ Hi) (bi_sec _ Hi) B1) as [GF DG].
  destruct (decode_section _ _ _ _) as [vs q]. cbn [fst snd] in *.
  rewrite RE1, RE2, RE3.
  set (trl := match b_ph s with HpTrailersBegin => true | _ => false end).
  destruct (on_headers sf (b_http s) vs rreq trl rext) as [[h out] ok] eqn:OH.
  (* the fields of this piece *)
  assert (F : forall st, link s st -> exists st1, leads r st (map (if trl then BvTrailer else BvHeader) out) st1 /\
     match st1 with InHead _ | InTrail _ _ _ => True | _ => False end /\ (ok = true -> linkp (b_ph s) h st1)).
  { intros st L. unfold link in L. rewrite Rd in L. unfold trl in *. destruct P as [P|P]; rewrite P in *; cbn [linkp] in L.
    - destruct L as (hs & l & h1 & -> & ST & G & O1). exists (InHead (hs ++ out)). split; [apply leads_fields|]. split; [auto|].
      intros ->. cbn [linkp]. exists (hs ++ out), (l ++ vs), h1. split; [auto|]. split; [auto|]. split; [apply Forall_app; auto|].
      rewrite on_headers_app, O1, OH. reflexivity.
    - destruct L as (hs & m & ts & l & h1 & -> & IB & G & O1). exists (InTrail hs m (ts ++ out)). split; [apply leads_tfields|]. split; [auto|].
      intros ->. cbn [linkp]. exists hs, m, (ts ++ out), (l ++ vs), h1. split; [auto|]. split; [auto|]. split; [apply Forall_app; auto|].
      rewrite on_headers_app, O1, OH. reflexivity. }
  destruct ok; cbn [negb].
  2:{ unfold malformed, RQ. intros st L. destruct (F st L) as (st1 & F1 & F2 & _). exact (malformed_link s s h p _ st st1 L F1 F2). }
  assert (HE : forall sc d, RQ s (headers_end E s h sc d p (skipn (Z.to_nat n) p) n (map (if trl then BvTrailer else BvHeader) out))).
  { intros sc d.
    assert (X : forall st, link s st -> match headers_end E s h sc d p (skipn (Z.to_nat n) p) n (map (if trl then BvTrailer else BvHeader) out) with
       | SGo s' _ _ ev | SMore s' ev => exists st', leads r st ev st' /\ link s' st' | SAbort => True | _ => False end).
    { intros st L. apply headers_end_link; auto. destruct (F st L) as (st1 & F1 & F2 & F3). exists st1. auto. }
    destruct (headers_end _ _ _ _ _ _ _ _ _); cbn [RQ]; auto; intros st L; specialize (X st L); auto; contradiction. }
  destruct q as [sc v rest0|sc rest0|sc|d' sc|e d' sc|]; try contradiction; auto; try (apply HE).
  - destruct (e_full E); cbn [RQ b_fail]; intros st L; destruct (F st L) as (st1 & F1 & F2 & F3); exists st1; auto. split; [auto|]. apply F3; auto.
  - destruct (b_left s - n =? 0); [apply HE|]. cbn [RQ]. intros st L; destruct (F st L) as (st1 & F1 & F2 & F3); exists st1. split; [auto|]. apply F3; auto.
  - cbn [RQ b_fail]. intros st L; destruct (F st L) as (st1 & F1 & F2 & F3); exists st1; auto.
Qed.
Lemma bstep_link E s p : env_of r sf E -> b_inv s -> bytes p -> runnable b_ce s p -> RQ s (bstep true false E s p).
Proof.
  intros EV Hi B Rn. unfold bstep.
  assert (ID : forall s', b_rd s <> FIgnRest -> b_rd s' <> FIgnRest -> b_ph s' = b_ph s -> b_http s' = b_http s -> Rl s [] s').
  { intros s' R1 R2 P H st L. exists st. split; [constructor|]. unfold link in *. rewrite P, H. destruct (b_rd s), (b_rd s'); try congruence; auto. }
  destruct (b_rd s) eqn:Rd.
  - destruct (rd_varint _ _ _); cbn [RQ b_fail]; auto; try apply Ql_nil; apply ID; cbn; auto; discriminate.
  - destruct (rd_varint (b_rv s) p false); cbn [RQ b_fail]; auto; try apply Ql_nil; [apply ID; cbn; auto; discriminate|].
    apply frame_start_link; auto.
  - apply data_link; auto. intros ->. destruct Rn as [Rn|Rn]; [congruence|]. unfold b_ce in Rn. congruence.
  - apply headers_link; auto.
  - cbv zeta. destruct (_ =? 0); cbn [RQ]; apply ID; cbn; auto; discriminate.
  - cbn [RQ]. intros st L. exists st. split; [constructor|]. unfold link in *. rewrite Rd in L. cbn. auto.
Qed.
Lemma b_read_link E s p fin : env_of r sf E -> b_inv s -> bytes p ->
  match b_read true E s p fin with
  | ROk s' ev | RStop s' _ ev => Rl s ev s'
  | RErr _ _ ev => Ql s ev
  | RAbort => True
  end.
Proof.
  intros EV Hi B.
  assert (F : match b_read true E s p false with ROk s' ev | RStop s' _ ev => Rl s ev s' | RErr _ _ ev => Ql s ev | RAbort => True end).
  { unfold b_read, b_run.
    pose proof (run_relq (bstep true false E) 2 b_rank b_inv b_ce (bstep_sok E) Rl Ql Rl_refl Rl_trans Ql_trans
      (fun s a I0 B0 R0 => bstep_link E s a EV I0 B0 R0) s p false Hi B ltac:(discriminate)) as R. destruct (run _ _ _ _ _ _); auto. }
  destruct fin; [|exact F]. rewrite b_read_fin by auto. destruct (b_read true E s p false) as [s' ev| | |] eqn:BR; auto.
  assert (RE : e_req E = rreq) by (destruct EV as [_ EV']; unfold rreq; destruct r; tauto).
  assert (Q : Ql s ev) by (intros st L; destruct (F st L) as (st' & A & _); eauto).
  unfold b_finish. rewrite RE. destruct (b_rd s') eqn:Rd; auto. destruct (negb _); auto.
  destruct (transit rreq (b_ph s') (b_http s') HeMsgEnd) as [ph|e|] eqn:T; auto.
  intros st L. destruct (F st L) as (st' & L1 & L2). unfold link in L2. rewrite Rd in L2.
  destruct (msg_end _ _ _ _ L2 T) as [-> L3]. exists Complete. split; [eapply leads_app; eauto|reflexivity].
Qed.
End Link.

(* ---- histories ---- *)
Definition xlink (r : role) (st : stage) (lk : bst -> stage -> Prop) (x : xres) : Prop :=
  match x with
  | XOk x' ev => exists st', leads r st ev st' /\ lk (x_st x') st'
  | XGone _ ev | XErr _ ev => exists st', leads r st ev st'
  | XAbort => True
  end.
Lemma xlink_nrm r st lk x : xlink r st lk (nrm x) <-> xlink r st lk x.
Proof. destruct x; cbn; tauto. Qed.
Lemma step_link r sf E x o st : env_of r sf E -> match o with ROther E' _ => env_of r sf E' | _ => True end ->
  x_inv x -> rop_bytes o -> rop_ok E x o -> link r sf (x_st x) st ->
  env_of r sf (fst (x_step true E x o)) /\ xlink r st (link r sf) (snd (x_step true E x o)).
Proof.
  intros EV EV' Hx B O L. pose proof Hx as [X1 X2 X3 X4].
  assert (ID : forall x', link r sf (x_st x') st -> xlink r st (link r sf) (XOk x' [])) by (intros; exists st; split; [constructor|auto]).
  destruct o as [src fin|E' d| |]; cbn [x_step fst snd rop_bytes rop_ok] in *.
  - split; [auto|]. destruct (recv_abs E x src fin Hx B) as [P _]. apply xlink_nrm. rewrite P. unfold a_recv. cbv zeta.
    destruct (_ && _); [apply ID; auto|]. destruct (x_shut x); [apply ID; auto|]. destruct (b_blk (x_st x)); [apply ID; auto|].
    pose proof (b_read_link r sf E (x_st x) src fin EV X1 B) as R.
    destruct (b_read true E (x_st x) src fin); cbn [xlink]; auto; apply (R st L).
  - destruct O as [_ O]. destruct (evolves_ok _ _ O (conj (bi_dec _ X1) (bi_bad _ X1))) as [D1 D2].
    pose proof (st_dec_inv _ d X1 D1 D2) as I1.
    destruct (_ && _); cbn [fst snd]; (split; [auto|]); [|apply ID; exact L].
    set (y := x_set_st x (st_blk (st_dec (x_st x) d) false)).
    assert (P : xlink r st (link r sf) (process_blocked true (S (length (x_inq y))) E' y)).
    { destruct (proc_abs E' (x_inq y) y (S (length (x_inq y)))) as [P _]; auto; [apply st_blk_inv; auto|].
      apply xlink_nrm. rewrite P. unfold a_proc. cbv zeta. destruct (_ =? 0); [apply ID; exact L|]. destruct (x_shut y); [apply ID; exact L|].
      pose proof (b_read_link r sf E' (x_st y) (inbytes (x_inq y)) (x_eof y) EV' ltac:(apply st_blk_inv; auto) (inbytes_bytes _ X2)) as R.
      destruct (b_read true E' (x_st y) (inbytes (x_inq y)) (x_eof y)); cbn [xlink]; auto; apply (R st L). }
    unfold resume. destruct (process_blocked true _ E' y) as [x' ev|x' ev|e ev|]; auto. destruct (_ && _); auto.
    destruct P as (st' & P & _). exists st'. auto.
  - split; [auto|]. destruct (x_shut x); [apply ID; auto|]. destruct (dec_cancel_stream _ _); cbn [xlink]; auto; exists st; [split; [constructor|exact L]|constructor].
  - split; [auto|]. destruct (b_blk (x_st x)); [apply ID; exact L|]. exists st. constructor.
Qed.
Lemma xlink_evs r st lk ev st1 x : leads r st ev st1 -> xlink r st1 lk x -> xlink r st lk (x_evs ev x).
Proof.
  intros L. destruct x as [x e|x e|e v|]; cbn [xlink x_evs]; auto; [intros (st' & L' & K)|intros (st' & L')..]; exists st'; eauto using leads_app.
Qed.
Lemma run_link r sf ops : forall E x st, env_of r sf E -> envs_ok r sf ops -> x_inv x -> orop_bytes ops -> thist E x ops ->
  link r sf (x_st x) st -> xlink r st (link r sf) (x_run true E x ops).
Proof.
  induction ops as [|o ops IH]; intros E x st EV EO Hx B T L; cbn [x_run thist] in *; [exists st; split; [constructor|auto]|].
  inversion B as [|? ? B1 B2]; subst. inversion EO as [|? ? E1 E2]; subst. destruct T as [O T].
  destruct (step_link r sf E x o st EV E1 Hx B1 O L) as [EV1 SL].
  destruct (step_same E x x o Hx Hx (same_rx_refl x) B1 O) as (_ & _ & R & _).
  destruct (x_step true E x o) as [E3 q]. cbn [fst snd] in *. destruct q as [x1 e1|x1 e1|e e1|]; auto.
  destruct SL as (st1 & L1 & K1). eapply xlink_evs; [exact L1|apply IH; auto].
Qed.
Lemma link_init r sf id d : link r sf (bst_init id (http_of r) d) AtStart.
Proof. unfold link. cbn. split; [auto|]. unfold start, http_of. destruct r; [auto|constructor]. Qed.

(* the grammar as messages *)
Definition form (r : role) (st : stage) (cb : list bev) : Prop :=
  match st with
  | AtStart => exists infos, Forall (fun l => interim r (map fl l)) infos /\ cb = concat (map head_section infos)
  | InHead hs => exists infos, Forall (fun l => interim r (map fl l)) infos /\
      cb = concat (map head_section infos) ++ BvBeginHeaders :: map BvHeader hs
  | InBody hs n => exists infos bd, Forall (fun l => interim r (map fl l)) infos /\ final r (map fl hs) /\ n = zlen bd /\
      cb = concat (map head_section infos) ++ head_section hs ++ map BvData bd
  | InTrail hs n ts => exists infos bd, Forall (fun l => interim r (map fl l)) infos /\ final r (map fl hs) /\ n = zlen bd /\
      ~ tunnel r (map fl hs) /\
      cb = concat (map head_section infos) ++ head_section hs ++ map BvData bd ++ BvBeginTrailers :: map BvTrailer ts
  | AfterTrail hs n => exists infos bd ts, Forall (fun l => interim r (map fl l)) infos /\ final r (map fl hs) /\ n = zlen bd /\
      match ts with Some l => ~ tunnel r (map fl hs) /\ wf_trailers (map fl l) | None => True end /\
      cb = concat (map head_section infos) ++ head_section hs ++ map BvData bd ++
           match ts with Some l => trail_section l | None => [] end
  | Complete => exists infos hs bd ts, message r infos hs bd ts /\ cb = message_events infos hs bd ts
  | Refusing | Refused => True
  end.
Ltac nass := repeat rewrite <- ?app_assoc, <- ?app_comm_cons; cbn [app].
Lemma form_next r st e st' cb : next r st e st' -> form r st cb -> form r st' (cb ++ if callback e then [e] else []).
Proof.
  intros N. destruct N; cbn [form callback]; rewrite ?app_nil_r; auto.
  - intros (i & I & ->). exists i. auto.
  - intros (i & I & ->). exists i. split; [auto|]. rewrite map_app. nass. reflexivity.
  - intros (i & I & ->). exists (i ++ [hs]). split; [apply Forall_app; auto|]. rewrite map_app, concat_app. cbn [map concat]. unfold head_section at 3.
    rewrite app_nil_r. nass. reflexivity.
  - intros (i & I & ->). exists i, []. split; [auto|]. split; [auto|]. split; [reflexivity|]. unfold head_section at 2. cbn [map]. rewrite app_nil_r. nass. reflexivity.
  - intros (i & bd & I & F & -> & ->). exists i, (bd ++ [b]). split; [auto|]. split; [auto|]. split; [rewrite zlen_app; reflexivity|]. rewrite map_app. nass. reflexivity.
  - intros (i & bd & I & F & -> & ->). exists i, bd. split; [auto|]. split; [auto|]. split; [auto|]. split; [auto|]. nass. reflexivity.
  - intros (i & bd & I & F & -> & T & ->). exists i, bd. split; [auto|]. split; [auto|]. split; [auto|]. split; [auto|]. rewrite map_app. nass. reflexivity.
  - intros (i & bd & I & F & -> & T & ->). exists i, bd, (Some ts). split; [auto|]. split; [auto|]. split; [auto|]. split; [auto|]. unfold trail_section. nass. reflexivity.
  - intros (i & bd & I & F & -> & ->). exists i, hs, bd, None. split; [constructor; auto|]. unfold message_events. nass. reflexivity.
  - intros (i & bd & ts & I & F & -> & T & ->). exists i, hs, bd, ts. split; [constructor; auto|]. unfold message_events. nass. reflexivity.
  - intros (i & bd & I & F & -> & ->). exists i, bd, None. split; [auto|]. split; [auto|]. split; [auto|]. split; [auto|]. rewrite app_nil_r. reflexivity.
Qed.
Lemma form_leads r st evs st' : leads r st evs st' -> forall cb, form r st cb -> form r st' (cb ++ callbacks evs).
Proof.
  induction 1 as [st|st e st1 evs st' N L IH]; intros cb F; [cbn; rewrite app_nil_r; auto|].
  specialize (IH _ (form_next _ _ _ _ _ N F)). rewrite <- app_assoc in IH. unfold callbacks in *. cbn [filter].
  destruct (callback e); exact IH.
Qed.
Lemma leads_end r st evs st' : leads r st evs st' -> (st = Complete \/ In BvEndStream evs) -> st' = Complete.
Proof.
  induction 1 as [st|st e st1 evs st' N L IH]; intros [->|I]; try contradiction; auto.
  - apply IH. left. inversion N; auto.
  - destruct I as [->|I]; [|auto]. apply IH. left. inversion N; auto.
Qed.

Definition evs_of (x : xres) : list bev := match x with XOk _ e | XGone _ e | XErr _ e => e | XAbort => [] end.
Theorem trace_grammar r sf E id d ops : env_of r sf E -> envs_ok r sf ops -> dec_ok d -> 0 <= id < 2 ^ 62 ->
  bytes (received ops) -> hist_ok E (rx_init id (http_of r) d) ops ->
  x_run false E (rx_init id (http_of r) d) ops <> XAbort /\
  exists st, leads r AtStart (evs_of (x_run false E (rx_init id (http_of r) d) ops)) st.
Proof.
  intros EV EO D I B H. pose proof (cut_independent E id (http_of r) d ops ops D I B H (rc_refl _)) as [_ CI].
  apply received_bytes in B. apply hist_thist in H. pose proof (rx_init_inv id (http_of r) d D I) as Hx.
  pose proof (run_link r sf ops E _ AtStart EV EO Hx B H (link_init r sf id d)) as R. split.
  { intros A. rewrite A in CI. contradiction. }
  destruct (run_pre ops E (rx_init id (http_of r) d)) as [-> |(e & v1 & v2 & -> & K & c & ->)].
  - destruct (x_run true E _ ops); cbn [xlink evs_of] in *; [destruct R as (st & R & _)|..]; eauto. exists AtStart. constructor.
  - rewrite K in R. cbn [xlink evs_of] in *. destruct R as (st & R). eapply leads_pre; eauto.
Qed.
Theorem trace_message r evs st : leads r AtStart evs st -> In BvEndStream evs ->
  exists infos hs bd ts, message r infos hs bd ts /\ callbacks evs = message_events infos hs bd ts.
Proof.
  intros L I. pose proof (leads_end _ _ _ _ L (or_intror I)) as ->.
  apply (form_leads _ _ _ _ L []). exists []. split; [constructor|reflexivity].
Qed.

(* ---- frames out of order are refused ---- *)
Lemma refused_in ty : refused ty = true <-> In ty forbidden_frames.
Proof.
  unfold refused, forbidden_frames, FRAME_PUSH_PROMISE, FRAME_CANCEL_PUSH, FRAME_SETTINGS, FRAME_GOAWAY, FRAME_MAX_PUSH_ID, FRAME_PRIORITY_UPDATE, FRAME_PRIORITY_UPDATE_PUSH_ID.
  rewrite !orb_true_iff, !Z.eqb_eq. cbn [In]. intuition lia.
Qed.
Lemma order_start r sf E s st len rest c : env_of r sf E -> b_inv s -> b_rd s = FLen -> link r sf s st -> 0 <= len ->
  (~ frame_allowed r st (b_ty s) -> frame_start E s len rest c = b_fail ERR_H3_FRAME_UNEXPECTED []) /\
  (frame_allowed r st (b_ty s) -> (b_ty s = 1 -> len <> 0 \/ st <> AtStart) ->
   exists s' b ev, frame_start E s len rest c = SGo s' rest b ev /\ (b = true -> b_rd s' = FIgnFrame)).
Proof.
  intros EV Hi Rd L LN. assert (RE : e_req E = rreq r) by (destruct EV as [_ EV]; unfold rreq; destruct r; tauto).
  pose proof (bi_ph _ Hi) as P. unfold ph_ok in P. rewrite Rd in P. unfold link in L. rewrite Rd in L.
  assert (CONN : forall hs n, in_body r (map fl hs) n (b_http s) ->
     ((if rreq r then h_connect (b_http s) else h_connect (b_http s) && (Z.quot (h_code (b_http s)) 100 =? 2)) = true <-> tunnel r (map fl hs))).
  { intros hs n B. pose proof (ib_tunnel _ _ _ _ B). unfold rreq. destruct r; auto. }
  assert (RQF : forall hs n, in_body r (map fl hs) n (b_http s) -> negb (rreq r) && (h_code (b_http s) =? -1) = false).
  { intros hs n B. unfold rreq. pose proof (ib_code _ _ _ _ B) as IC. destruct r; cbn; auto. lia. }
  unfold frame_start. rewrite RE. cbv zeta.
  destruct (b_ty s =? FRAME_DATA) eqn:T0; [apply Z.eqb_eq in T0; change FRAME_DATA with 0 in T0; rewrite T0|].
  { assert (X : (transit (rreq r) (b_ph s) (b_http s) HeDataBegin = Ok HpDataBegin /\ exists hs n, st = InBody hs n) \/
                (transit (rreq r) (b_ph s) (b_http s) HeDataBegin = Err ERR_H3_FRAME_UNEXPECTED /\ ~ exists hs n, st = InBody hs n)).
    { assert (NO : forall q, match q with InBody _ _ => False | _ => True end -> ~ exists hs n, q = InBody hs n) by (intros q K (? & ? & ->); exact K).
      destruct (b_ph s); try contradiction; cbn [linkp transit] in *.
      - right. destruct L as [-> _]. split; [auto|apply NO; exact Logic.I].
      - destruct L as [(-> & R0 & _ & F & _)|(hs & n & -> & B)].
        + rewrite R0, F. right. split; [auto|apply NO; exact Logic.I].
        + rewrite (ib_fin _ _ _ _ B), andb_false_r. left. split; [auto|]. exists hs, n; auto.
      - destruct L as (hs & n & -> & B). left. split; [auto|]. exists hs, n; auto.
      - destruct L as (hs & n & -> & B). right. split; [auto|apply NO; exact Logic.I].
      - subst. right. split; [auto|apply NO; exact Logic.I]. }
    destruct X as [[-> X]|[-> X]].
    - split.
      + intros N. exfalso. apply N. split; [auto|]. split; [discriminate|]. cbn. intuition discriminate.
      + intros _ _. destruct (len =? 0); cbn [transit]; eexists _, false, _; (split; [reflexivity|discriminate]).
    - split; [reflexivity|]. intros [A _]. exfalso. auto. }
  destruct (b_ty s =? FRAME_HEADERS) eqn:T1; [apply Z.eqb_eq in T1; change FRAME_HEADERS with 1 in T1; rewrite T1|].
  { set (legal := st = AtStart \/ exists hs n, st = InBody hs n /\ ~ tunnel r (map fl hs)).
    assert (X : (exists ph, transit (rreq r) (b_ph s) (b_http s) HeHeadersBegin = Ok ph /\ legal /\
                   ((ph = HpHeadersBegin /\ st = AtStart) \/ ph = HpTrailersBegin)) \/
                (transit (rreq r) (b_ph s) (b_http s) HeHeadersBegin = Err ERR_H3_FRAME_UNEXPECTED /\ ~ legal)).
    { unfold legal. destruct (b_ph s); try contradiction; cbn [linkp transit] in *.
      - left. destruct L as [-> _]. eauto 8.
      - destruct L as [(-> & R0 & _ & F & C)|(hs & n & -> & B)].
        + rewrite R0, C. left. cbn. eauto 8.
        + rewrite (RQF _ _ B). pose proof (CONN _ _ B) as CN. destruct (if rreq r then _ else _).
          * right. split; [auto|]. intros [K|(hs' & n' & [= <- <-] & K)]; [discriminate|]. apply K, CN; auto.
          * left. eexists. split; [reflexivity|]. split; [|auto]. right. exists hs, n. split; [auto|]. intros K. apply CN in K. discriminate.
      - destruct L as (hs & n & -> & B). pose proof (CONN _ _ B) as CN. destruct (if rreq r then _ else _).
          * right. split; [auto|]. intros [K|(hs' & n' & [= <- <-] & K)]; [discriminate|]. apply K, CN; auto.
          * left. eexists. split; [reflexivity|]. split; [|auto]. right. exists hs, n. split; [auto|]. intros K. apply CN in K. discriminate.
      - destruct L as (hs & n & -> & B). right. split; [auto|]. intros [K|(? & ? & K & _)]; discriminate.
      - subst. right. split; [auto|]. intros [K|(? & ? & K & _)]; discriminate. }
    destruct X as [(ph & -> & X & Y)|[-> X]].
    - split.
      + intros N. exfalso. apply N. split; [discriminate|]. split; [auto|]. cbn. intuition discriminate.
      + intros _ LZ. specialize (LZ eq_refl). destruct (len =? 0) eqn:Z0.
        * destruct Y as [[-> ->]| ->]; [destruct LZ as [LZ|LZ]; [lia|congruence]|]. cbn. eexists _, false, _; (split; [reflexivity|discriminate]).
        * destruct Y as [[-> ->]| ->]; eexists _, false, _; (split; [reflexivity|discriminate]).
    - split; [reflexivity|]. intros [_ [A _]]. exact (False_ind _ (X (A eq_refl))). }
  apply Z.eqb_neq in T0, T1. change FRAME_DATA with 0 in T0. change FRAME_HEADERS with 1 in T1.
  pose proof (refused_in (b_ty s)) as RF. destruct (refused (b_ty s)).
  - split; [reflexivity|]. intros (_ & _ & A). exfalso. apply A, RF; auto.
  - split.
    + intros N. exfalso. apply N. split; [intros; contradiction|]. split; [intros; contradiction|]. intros K. apply RF in K. discriminate.
    + intros _ _. eexists _, true, _. split; [reflexivity|]. reflexivity.
Qed.
Lemma order_recv r sf E x st p ty len p1 : env_of r sf E -> x_inv x -> link r sf (x_st x) st -> at_boundary x -> bytes p ->
  get_varint p = Some (ty, p1) -> get_varint p1 = Some (len, []) ->
  (~ frame_allowed r st ty -> recv false E x p false = XErr ERR_H3_FRAME_UNEXPECTED []) /\
  (frame_allowed r st ty -> (ty = 1 -> len <> 0 \/ st <> AtStart) -> exists x' ev, recv false E x p false = XOk x' ev).
Proof.
  intros EV Hx L (B1 & B2 & B3 & B4) BP G1 G2. pose proof Hx as [X1 X2 X3 X4].
  pose proof (rv_inv_left _ (bi_rv _ X1) B4) as RV.
  assert (NE : p <> []) by (intros ->; discriminate).
  pose proof (get_varint_app p [] BP) as GA. rewrite G1 in GA. destruct GA as (_ & R1 & BP1 & LP1).
  pose proof (get_varint_app p1 [] BP1) as GA. rewrite G2 in GA. destruct GA as (_ & R2 & _ & _).
  assert (NE1 : p1 <> []) by (intros ->; discriminate).
  assert (V1 : rd_varint rv_reset p false = VDone ty p1).
  { destruct (rd_varint_spec [] p false) as [V _]; [split; constructor|auto|auto|]. cbn [app] in V. rewrite G1 in V. exact V. }
  assert (V2 : rd_varint rv_reset p1 false = VDone len []).
  { destruct (rd_varint_spec [] p1 false) as [V _]; [split; constructor|auto|auto|]. cbn [app] in V. rewrite G2 in V. exact V. }
  set (s1 := b_setrd (x_st x) FLen rv_reset ty (b_left (x_st x)) (b_ph (x_st x)) (zlen p - zlen p1)).
  assert (I1 : b_inv s1).
  { apply b_inv_set; [auto|apply rv_inv_reset|apply (bi_left _ X1)|]. pose proof (bi_ph _ X1) as P. unfold ph_ok in *. rewrite B3 in P. exact P. }
  assert (L1 : link r sf s1 st) by (unfold link in *; rewrite B3 in L; exact L).
  pose proof (run_turn (bstep true false E) 2 b_rank b_inv b_ce (bstep_sok E)) as RT.
  assert (BS : bstep true false E s1 p1 = frame_start E s1 len [] (zlen p1 - zlen (@nil Z))).
  { unfold bstep. change (b_rd s1) with FLen. cbv iota. change (b_rv s1) with rv_reset. rewrite V2. reflexivity. }
  assert (RB : b_read true E (x_st x) p false = turn (bstep true false E) s1 p1 (run (bstep true false E) 2 b_rank)).
  { unfold b_read, b_run. rewrite RT by (auto; discriminate). unfold turn at 1.
    replace (bstep true false E (x_st x) p) with (@SGo bst bev s1 p1 false []) by (unfold bstep; rewrite B3, RV, V1; reflexivity).
    rewrite RT by (auto; discriminate). destruct (turn _ s1 p1 _); reflexivity. }
  destruct (order_start r sf E s1 st len [] (zlen p1 - zlen (@nil Z)) EV I1 eq_refl L1 ltac:(lia)) as [O1 O2].
  change (b_ty s1) with ty in *.
  assert (ZP : zlen p =? 0 = false) by (apply Z.eqb_neq; destruct p; [congruence|rewrite zlen_cons; pose proof (zlen_nonneg _ p); lia]).
  pose proof (bstep_sok E s1 p1 I1 BP1 (or_introl NE1)) as SOK. rewrite BS in SOK.
  unfold recv. rewrite ZP. cbn [andb]. cbv zeta. unfold read_bidi. cbn [x_st x_shut]. rewrite B1, B2.
  split.
  - intros N. specialize (O1 N).
    assert (RB' : b_read true E (x_st x) p false = RErr ERR_H3_FRAME_UNEXPECTED bst_dead []) by (rewrite RB; unfold turn; rewrite BS, O1; reflexivity).
    destruct (b_read_pre E (x_st x) p false) as [-> |(e & v1 & v2 & -> & K & c & ->)]; [rewrite RB'; reflexivity|].
    rewrite RB' in K. injection K as <- K. symmetry in K. apply app_eq_nil in K as [-> _]. reflexivity.
  - intros A LZ. destruct (O2 A LZ) as (s' & b & ev & FS & FB). rewrite FS in SOK. destruct SOK as (S1 & _ & _ & S4 & _).
    assert (RB' : exists s2 ev2, b_read true E (x_st x) p false = ROk s2 ev2).
    { rewrite RB. unfold turn. rewrite BS, FS. destruct b; [|do 2 eexists; reflexivity].
      rewrite RT; [|auto|constructor|auto|auto]. unfold turn.
      assert (KB : exists s3, bstep true false E s' [] = SGo s3 [] false [] \/ bstep true false E s' [] = SMore s3 []).
      { unfold bstep. rewrite (FB eq_refl). cbv zeta. rewrite skipn_nil. match goal with |- context [if ?c then _ else _] => destruct c end; eexists; [left|right]; reflexivity. }
      destruct KB as (s3 & [-> | ->]); do 2 eexists; reflexivity. }
    destruct RB' as (s2 & ev2 & RB'). destruct (b_read_pre E (x_st x) p false) as [-> |(e & v1 & v2 & _ & K & _)]; [|congruence].
    rewrite RB'. do 2 eexists. reflexivity.
Qed.
Theorem order_enforced r sf E id d ops x evs p ty len p1 : env_of r sf E -> envs_ok r sf ops -> dec_ok d -> 0 <= id < 2 ^ 62 ->
  bytes (received ops) -> hist_ok E (rx_init id (http_of r) d) ops ->
  x_run false E (rx_init id (http_of r) d) ops = XOk x evs -> at_boundary x -> bytes p ->
  get_varint p = Some (ty, p1) -> get_varint p1 = Some (len, []) ->
  exists st, leads r AtStart evs st /\
  (~ frame_allowed r st ty -> forall E', env_of r sf E' -> recv false E' x p false = XErr ERR_H3_FRAME_UNEXPECTED []) /\
  (frame_allowed r st ty -> (ty = 1 -> len <> 0 \/ st <> AtStart) -> forall E', env_of r sf E' ->
   exists x' ev, recv false E' x p false = XOk x' ev).
Proof.
  intros EV EO D I B H XR AB BP G1 G2.
  pose proof H as H0. apply received_bytes in B. apply hist_thist in H. pose proof (rx_init_inv id (http_of r) d D I) as Hx.
  pose proof (run_link r sf ops E _ AtStart EV EO Hx B H (link_init r sf id d)) as R.
  destruct (run_pre ops E (rx_init id (http_of r) d)) as [K |(e & v1 & v2 & K & _)]; [|congruence].
  rewrite XR in K. rewrite <- K in R. destruct R as (st & R & L).
  assert (XI : x_inv x).
  { destruct (same_agree ops B E _ _ Hx Hx (same_rx_refl _)) as [_ SA]. destruct (SA H) as [_ RI]. rewrite <- K in RI. exact RI. }
  exists st. split; [auto|]. split; intros; edestruct (order_recv r sf E' x st p ty len p1) as [Z1 Z2]; eauto.
Qed.
