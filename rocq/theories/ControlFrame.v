(* One complete frame on the control stream *)
From Verif Require Import Base BaseLemmas ConvModel ConvSpec ConvProofs RdVarint HttpModel Chunk Chunk2 ControlModel ControlSpec ControlProofs ControlTrace.
Open Scope Z_scope.

Lemma rf_turn (g : cst -> list Z -> sres cst cev) f s p busy : p <> [] \/ busy = true -> run_fuel g (S f) s p busy = turn g s p (run_fuel g f).
Proof. destruct p, busy; intros [H|H]; try congruence; try discriminate; reflexivity. Qed.
Lemma gv_suffix l v r : bytes l -> get_varint l = Some (v, r) -> bytes r /\ (length r < length l)%nat /\ skipn (length l - length r) l = r.
Proof.
  intros B G. pose proof (get_varint_app l [] B) as A. rewrite G in A. destruct A as (_ & _ & B1 & L). repeat split; auto.
  assert (l <> []) by (intros ->; discriminate).
  pose proof (rd_varint_spec [] l true ltac:(split; [constructor|exact Logic.I]) B H) as [R _]. cbn [app] in R. rewrite G in R. eapply rd_rest; eauto.
Qed.
Lemma rv_after_nil : rv_after [] = rv_reset. Proof. reflexivity. Qed.
Lemma rd_fresh p fin : bytes p -> p <> [] ->
  rd_varint rv_reset p fin = match get_varint p with Some (v, rest) => VDone v rest | None => if fin then VErr else VMore (rv_after p) end.
Proof. intros B N. rewrite <- rv_after_nil. destruct (rd_varint_spec [] p fin ltac:(split; [constructor|exact Logic.I]) B N) as [R _]. exact R. Qed.
Lemma fr_whole payload : bytes payload -> payload <> [] ->
  fr_varint rv_reset (zlen payload) payload = match get_varint payload with Some (v, r) => FvDone v (zlen r) r | None => FvErr end.
Proof.
  intros B N. pose proof (zpos _ payload N). unfold fr_varint. rewrite Z.min_id. destruct (Z.leb_spec (zlen payload) 0); [lia|].
  rewrite zlen_length, firstn_all. rewrite rd_fresh by auto. rewrite Z.leb_refl.
  destruct (get_varint payload) as [[v r]|] eqn:G; auto. destruct (gv_suffix _ _ _ B G) as (_ & L & S). f_equal; [lia|].
  replace (Z.to_nat (zlen payload - zlen r)) with (length payload - length r)%nat by (unfold zlen; lia). exact S.
Qed.
Lemma c_refused_iff ty : c_refused ty = existsb (Z.eqb ty) never_on_control.
Proof.
  unfold c_refused, never_on_control. cbn [existsb]. unfold FRAME_CANCEL_PUSH, FRAME_DATA, FRAME_HEADERS, FRAME_PUSH_PROMISE, DATA, HEADERS, CANCEL_PUSH, PUSH_PROMISE.
  destruct (ty =? 0), (ty =? 1), (ty =? 3), (ty =? 5), (ty =? 2), (ty =? 6), (ty =? 8), (ty =? 9); reflexivity.
Qed.
Lemma client_bidi_iff id : client_bidi id = (id mod 4 =? 0).
Proof. unfold client_bidi. change 3 with (Z.ones 2). rewrite Z.land_ones by lia. reflexivity. Qed.
Lemma prio_allowed_iff E id : prio_allowed E id = (id mod 4 =? 0) && (id / 4 <? ce_max E).
Proof.
  unfold prio_allowed, ord_stream_id. rewrite client_bidi_iff, Z.shiftr_div_pow2 by lia. change (2 ^ 2) with 4.
  destruct (Z.leb_spec (id / 4 + 1) (ce_max E)), (Z.ltb_spec (id / 4) (ce_max E)); auto; lia.
Qed.

Lemma settings_dec n : forall p, (length p <= n)%nat -> bytes p -> (exists l, rfc_settings_payload p l) \/ (forall l, ~ rfc_settings_payload p l).
Proof.
  induction n as [|n IH]; intros p L B; [destruct p; [left; exists []; constructor|cbn in L; lia]|].
  destruct p as [|z p']; [left; exists []; constructor|]. set (p := z :: p') in *.
  destruct (get_varint p) as [[id p1]|] eqn:G1.
  2:{ right. intros l H. inversion H; subst. rewrite <- get_varint_rfc in H0 by auto. congruence. }
  destruct (gv_suffix _ _ _ B G1) as (B1 & L1 & _). destruct (get_varint p1) as [[v p2]|] eqn:G2.
  2:{ right. intros l H. inversion H; subst. rewrite <- get_varint_rfc in H0 by auto. rewrite G1 in H0. injection H0 as <- <-. rewrite <- get_varint_rfc in H1 by auto. congruence. }
  destruct (gv_suffix _ _ _ B1 G2) as (B2 & L2 & _). destruct (IH p2) as [[l H]|H]; auto; [cbn in *; lia| |].
  - left. exists ((id, v) :: l). econstructor; [rewrite <- get_varint_rfc by auto; exact G1|rewrite <- get_varint_rfc by auto; exact G2|exact H].
  - right. intros l H'. inversion H'; subst. rewrite <- get_varint_rfc in H0 by auto. rewrite G1 in H0. injection H0 as <- <-. rewrite <- get_varint_rfc in H1 by auto. rewrite G2 in H1. injection H1 as <- <-. eapply H; eauto.
Qed.
Lemma frame_parts p ty payload : bytes p -> rfc_frame p = Some (ty, payload, []) ->
  exists p1, get_varint p = Some (ty, p1) /\ get_varint p1 = Some (zlen payload, payload) /\ bytes payload /\ (length payload + 2 <= length p)%nat.
Proof.
  intros B. unfold rfc_frame. rewrite <- get_varint_rfc by auto. destruct (get_varint p) as [[t p1]|] eqn:G1; [|discriminate].
  pose proof (get_varint_app p [] B) as A1. rewrite G1 in A1. destruct A1 as (_ & _ & B1 & L1).
  rewrite <- get_varint_rfc by auto. destruct (get_varint p1) as [[n p2]|] eqn:G2; [|discriminate].
  pose proof (get_varint_app p1 [] B1) as A2. rewrite G2 in A2. destruct A2 as (_ & R2 & B2 & L2).
  destruct (take_exact (Z.to_nat n) p2) as [[a r]|] eqn:T; [|discriminate]. intros [= -> -> ->].
  apply take_exact_spec in T as [-> T]. rewrite app_nil_r in *. exists p1. split; auto.
  replace n with (zlen payload) in G2 by (unfold zlen; lia). repeat split; auto. lia.
Qed.
(* a frame, read in one call *)
Section FRAME.
Variable E : cenv.
Let g := c_step false E.
Definition hd_state (s : cst) (ty n : Z) (r : crd) : cst :=
  mk_cst r rv_reset ty n (c_id s) true (c_set s) (c_goaway s) (c_closing s) (c_pushes s) (c_buf s).
Lemma head_run s p ty p1 n payload f : at_frame s -> bytes p -> get_varint p = Some (ty, p1) -> get_varint p1 = Some (n, payload) ->
  (2 <= f)%nat -> run_fuel g f s p false =
  match c_frame_start E (mk_cst CLen rv_reset ty (c_left s) (c_id s) (c_seen s) (c_set s) (c_goaway s) (c_closing s) (c_pushes s) (c_buf s)) n payload with
  | SGo s' rest b ev => rev_ ev (run_fuel g (f - 2) s' rest b)
  | SMore s' ev => ROk s' ev
  | SStop s' rest ev => RStop s' rest ev
  | SErr e s' ev => RErr e s' ev
  | SAbort => RAbort
  end.
Proof.
  intros [A1 A2] B G1 G2 F. destruct f as [|[|f]]; try lia. rewrite rf_turn by (left; intros ->; discriminate).
  unfold turn. unfold g at 1, c_step. rewrite A1, A2, rd_fresh by (auto; intros ->; discriminate). rewrite G1. cbn [rev_].
  destruct (gv_suffix _ _ _ B G1) as (B1 & _ & _).
  rewrite rf_turn by (left; intros ->; discriminate). unfold turn. unfold g at 1, c_step. cbn [c_rd c_rv].
  rewrite rd_fresh by (auto; intros ->; discriminate). rewrite G2. replace (S (S f) - 2)%nat with f by lia.
  destruct (c_frame_start _ _ _ _); cbn [rev_]; auto. destruct (rev_ evs _); auto.
Qed.
Ltac ung := match goal with |- context [match g ?a ?b with _ => _ end] => change (g a b) with (c_step false E a b) end; unfold c_step.
Ltac ok3 := eexists; eexists; split; [reflexivity|]; repeat split; auto; try (intros; discriminate); try (intros; congruence).
Theorem frame_one s p ty payload f :
  at_frame s -> c_seen s = true -> c_buf s = [] -> bytes p -> rfc_frame p = Some (ty, payload, []) -> (6 <= f)%nat ->
  match ctl_frame (ce_server E) (parse_priority (ce_sf E) (mk_pri 3 0)) (ce_max E) (c_goaway s) (c_pushes s) ty payload with
  | Some (CtlOk cbs g' n') => exists s' ev, run_fuel g f s p false = ROk s' ev /\ ctl_callbacks ev = cbs /\ at_frame s' /\ c_seen s' = true /\ c_buf s' = [] /\
      c_goaway s' = g' /\ c_pushes s' = n' /\ c_set s' = c_set s /\ (ty = GOAWAY -> c_closing s' = true)
  | Some (CtlErr e) => exists s' ev, run_fuel g f s p false = RErr e s' ev /\ ctl_callbacks ev = []
  | None => True
  end.
Proof.
  intros A SE BU B FR F. destruct (frame_parts _ _ _ B FR) as (p1 & G1 & G2 & BP & _).
  rewrite (head_run s p ty p1 (zlen payload) payload f A B G1 G2) by lia.
  unfold ctl_frame, c_frame_start. cbv zeta. cbn [c_ty c_seen c_rd c_id c_set c_goaway c_closing c_pushes c_buf]. rewrite SE. cbn [negb andb].
  rewrite <- c_refused_iff. change FRAME_SETTINGS with SETTINGS. change FRAME_GOAWAY with GOAWAY. change FRAME_MAX_PUSH_ID with MAX_PUSH_ID.
  change FRAME_PRIORITY_UPDATE_PUSH_ID with PRIORITY_UPDATE_PUSH. change FRAME_PRIORITY_UPDATE with PRIORITY_UPDATE.
  destruct (Z.eqb_spec ty SETTINGS) as [->|TS]; cbn [orb]; [eexists; eexists; split; reflexivity|].
  assert (P0 : payload <> [] -> (zlen payload =? 0) = false) by (intros N; apply Z.eqb_neq; pose proof (zpos _ _ N); lia).
  assert (F1 : exists f1, (f - 2 = S (S f1))%nat /\ (2 <= f1)%nat) by (exists (f - 4)%nat; lia). destruct F1 as (f1 & -> & F1).
  assert (VN : rfc_varint [] = None) by reflexivity.
  destruct (Z.eqb_spec ty GOAWAY) as [->|TG].
  { change (c_refused GOAWAY) with false. change (GOAWAY =? PRIORITY_UPDATE_PUSH) with false. cbv iota.
    destruct payload as [|z payload']; [eexists; eexists; split; reflexivity|]. set (payload := z :: payload') in *.
    rewrite P0 by discriminate. cbn [rev_ app]. rewrite rf_turn by (left; discriminate). unfold turn. ung. cbn [c_rd c_rv c_left c_go]. rewrite fr_whole by (auto; discriminate).
    rewrite <- get_varint_rfc by auto. destruct (get_varint payload) as [[v r]|] eqn:GV; [|eexists; eexists; split; reflexivity].
    destruct r; [|exact Logic.I]. cbn [c_goaway c_go]. rewrite client_bidi_iff. destruct (negb (ce_server E) && negb (v mod 4 =? 0)); [rewrite orb_true_r; eexists; eexists; split; reflexivity|].
    rewrite orb_false_r. destruct (c_goaway s <? v); [eexists; eexists; split; reflexivity|]. ok3. }
  destruct (Z.eqb_spec ty MAX_PUSH_ID) as [->|TM].
  { change (c_refused MAX_PUSH_ID) with false. change (MAX_PUSH_ID =? PRIORITY_UPDATE_PUSH) with false. cbv iota.
    destruct (ce_server E); cbn [negb]; [|eexists; eexists; split; reflexivity].
    destruct payload as [|z payload']; [eexists; eexists; split; reflexivity|]. set (payload := z :: payload') in *.
    rewrite P0 by discriminate. cbn [rev_ app]. rewrite rf_turn by (left; discriminate). unfold turn. ung. cbn [c_rd c_rv c_left c_go]. rewrite fr_whole by (auto; discriminate).
    rewrite <- get_varint_rfc by auto. destruct (get_varint payload) as [[v r]|] eqn:GV; [|eexists; eexists; split; reflexivity].
    destruct r; [|exact Logic.I]. cbn [c_pushes c_go]. destruct (v + 1 <? c_pushes s); [eexists; eexists; split; reflexivity|]. ok3. }
  destruct (Z.eqb_spec ty PRIORITY_UPDATE) as [->|TP].
  { change (c_refused PRIORITY_UPDATE) with false. change (PRIORITY_UPDATE =? PRIORITY_UPDATE_PUSH) with false. cbv iota.
    destruct (ce_server E) eqn:SV; cbn [negb]; [|eexists; eexists; split; reflexivity].
    destruct payload as [|z payload']; [eexists; eexists; split; reflexivity|]. set (payload := z :: payload') in *.
    rewrite P0 by discriminate. cbn [rev_ app]. rewrite rf_turn by (left; discriminate). unfold turn. ung. cbn [c_rd c_rv c_left c_go]. rewrite fr_whole by (auto; discriminate).
    rewrite <- get_varint_rfc by auto. destruct (get_varint payload) as [[v r]|] eqn:GV; [|eexists; eexists; split; reflexivity].
    rewrite SV. cbn [negb]. rewrite prio_allowed_iff.
    destruct (gv_suffix _ _ _ BP GV) as (BR & _ & _).
    destruct r as [|y r'].
    - cbn [zlen length]. change (8 <? 0) with false. cbv iota. change (Z.of_nat 0 =? 0) with true. cbv iota. destruct (_ && _); [|eexists; eexists; split; reflexivity]. ok3.
    - set (r := y :: r') in *. pose proof (zpos _ r ltac:(discriminate)) as Z0. assert (ZN : (zlen r =? 0) = false) by (apply Z.eqb_neq; lia). rewrite ZN. cbn [andb]. cbn [rev_ app].
      assert (ST : forall st, c_rd st = CPrio -> c_left st = zlen r -> c_buf st = [] -> c_id st = v -> g st r =
        if 8 <? zlen r then SGo (c_go st CIgn (c_rv st) (zlen r) v) r true []
        else match parse_priority (ce_sf E) (mk_pri 3 0) r with
             | None => c_fail ERR_H3_GENERAL_PROTOCOL_ERROR []
             | Some pr => if prio_allowed E v then SGo (c_reset (c_with_buf st [])) [] false [CvPriority v pr] else c_fail ERR_H3_ID_ERROR []
             end).
      { intros st S1 S2 S3 S4. unfold g, c_step. rewrite S1. unfold c_prio. rewrite S2, S3, S4, Z.min_id. destruct (Z.leb_spec (zlen r) 0); [lia|].
        rewrite zlen_nil, !Z.eqb_refl. cbn [andb]. unfold pri_bufsize. destruct (8 <? zlen r); [reflexivity|].
        rewrite zlen_length, firstn_all, skipn_all. unfold DEFAULT_URGENCY. destruct (parse_priority _ _ r); auto. rewrite SV. reflexivity. }
      rewrite rf_turn by (left; discriminate). unfold turn. rewrite ST by auto.
      destruct (8 <? zlen r) eqn:LG.
      + cbn [rev_ app]. destruct f1 as [|f1]; [lia|]. rewrite rf_turn by (left; discriminate). unfold turn. ung. cbn [c_rd c_go]. unfold c_ign. cbn [c_left c_go]. rewrite Z.min_id, Z.sub_diag.
        cbn [Z.eqb]. rewrite zlen_length, skipn_all. destruct f1; cbn [rev_ app run_fuel]; ok3.
      + cbn [Z.eqb]. destruct (parse_priority (ce_sf E) (mk_pri 3 0) r) as [pr|]; [|eexists; eexists; split; reflexivity]. rewrite prio_allowed_iff.
        destruct (_ && _); [|eexists; eexists; split; reflexivity]. destruct f1; cbn [rev_ app run_fuel]; ok3. }
  destruct (Z.eqb_spec ty PRIORITY_UPDATE_PUSH) as [->|TU]; [change (c_refused PRIORITY_UPDATE_PUSH) with false; eexists; eexists; split; reflexivity|].
  destruct (c_refused ty); [eexists; eexists; split; reflexivity|].
  cbn [rev_ app]. rewrite rf_turn by (right; reflexivity). unfold turn. ung. cbn [c_rd c_go]. unfold c_ign. cbn [c_left c_go].
  rewrite Z.min_id, Z.sub_diag. cbn [Z.eqb]. rewrite zlen_length, skipn_all. destruct f1; cbn [rev_ app run_fuel]; ok3.
Qed.
(* ---- SETTINGS ---- *)
Fixpoint settings_go (sv : bool) (r : rset) (l : list (Z * Z)) : list cev * outcome rset :=
  match l with
  | [] => ([], Ok r)
  | (id, v) :: l' =>
    match settings_entry sv r id v with
    | Ok (r1, ev) => let (ev2, o) := settings_go sv r1 l' in (ev ++ ev2, o)
    | Err e => ([], Err e)
    | Abort => ([], Abort)
    end
  end.
Definition set_result (s : cst) (x : list cev * outcome rset) : rres cst cev :=
  match x with
  | (ev, Ok r) => ROk (c_reset (c_with_set s r)) (ev ++ [CvSettings r])
  | (ev, Err e) => RErr e cst_init ev
  | (_, Abort) => RAbort
  end.
Lemma entry_err sv r id v e : settings_entry sv r id v = Err e -> e = ERR_H3_SETTINGS_ERROR.
Proof. unfold settings_entry. repeat match goal with |- context [if ?c then _ else _] => destruct c end; congruence. Qed.
Lemma entry_noabort sv r id v : settings_entry sv r id v <> Abort.
Proof. unfold settings_entry. repeat match goal with |- context [if ?c then _ else _] => destruct c end; congruence. Qed.
Lemma rev_set ev s x : rev_ ev (set_result s x) = set_result s (let (e2, o) := x in (ev ++ e2, o)).
Proof. destruct x as [e2 [r|e|]]; cbn; rewrite ?app_assoc; reflexivity. Qed.
Lemma settings_run n : forall payload s f, (length payload <= n)%nat -> bytes payload -> payload <> [] ->
  c_rd s = CSetId -> c_rv s = rv_reset -> c_left s = zlen payload -> (2 * length payload + 1 <= f)%nat ->
  (exists l, rfc_settings_payload payload l /\ run_fuel g f s payload false = set_result s (settings_go (ce_server E) (c_set s) l)) \/
  ((forall l, ~ rfc_settings_payload payload l) /\
   exists e s' ev, run_fuel g f s payload false = RErr e s' ev /\ (e = ERR_H3_FRAME_ERROR \/ e = ERR_H3_SETTINGS_ERROR)).
Proof.
  induction n as [|n IH]; intros p s f LN B N S1 S2 S3 F; [destruct p; cbn in LN; [congruence|lia]|].
  destruct f as [|[|f]]; [lia|destruct p; [congruence|cbn in F; lia]|]. rewrite rf_turn by auto. unfold turn. ung. rewrite S1, S2, S3, fr_whole by auto.
  destruct (get_varint p) as [[id p1]|] eqn:G1.
  2:{ right. split; [|eexists; eexists; eexists; split; [reflexivity|auto]]. intros l H. inversion H; subst; [congruence|]. rewrite <- get_varint_rfc in H0 by auto. congruence. }
  destruct (gv_suffix _ _ _ B G1) as (B1 & L1 & _). destruct p1 as [|z p1'].
  { right. split; [|eexists; eexists; eexists; split; [reflexivity|auto]]. intros l H. inversion H; subst; [congruence|]. rewrite <- get_varint_rfc in H0 by auto. rewrite G1 in H0. injection H0 as <- <-. discriminate. }
  set (p1 := z :: p1') in *. pose proof (zpos _ p1 ltac:(discriminate)) as Z1. destruct (Z.eqb_spec (zlen p1) 0) as [|_]; [lia|]. cbn [rev_].
  rewrite rf_turn by (left; discriminate). unfold turn. ung. cbn [c_rd c_rv c_left c_go]. rewrite fr_whole by (auto; discriminate).
  destruct (get_varint p1) as [[v p2]|] eqn:G2.
  2:{ right. split; [|eexists; eexists; eexists; split; [reflexivity|auto]]. intros l H. inversion H; subst; [congruence|]. rewrite <- get_varint_rfc in H0 by auto. rewrite G1 in H0. injection H0 as <- <-. rewrite <- get_varint_rfc in H1 by auto. congruence. }
  destruct (gv_suffix _ _ _ B1 G2) as (B2 & L2 & _). cbn [c_set c_id c_go].
  assert (CONS : forall l, rfc_settings_payload p2 l -> rfc_settings_payload p ((id, v) :: l)).
  { intros l H. econstructor; [rewrite <- get_varint_rfc by auto; exact G1|rewrite <- get_varint_rfc by auto; exact G2|exact H]. }
  assert (UNCONS : forall l, rfc_settings_payload p l -> exists l', l = (id, v) :: l' /\ rfc_settings_payload p2 l').
  { intros l H. inversion H; subst; [congruence|]. rewrite <- get_varint_rfc in H0 by auto. rewrite G1 in H0. injection H0 as <- <-. rewrite <- get_varint_rfc in H1 by auto. rewrite G2 in H1. injection H1 as <- <-. eauto. }
  destruct (settings_entry (ce_server E) (c_set s) id v) as [[r1 ev]|e|] eqn:SE.
  - destruct p2 as [|y p2'].
    + cbn [zlen length]. change (Z.of_nat 0 =? 0) with true. cbn [rev_]. left. exists [(id, v)]. split; [apply CONS; constructor|].
      cbn [settings_go]. rewrite SE. destruct f; cbn; rewrite !app_nil_r; reflexivity.
    + set (p2 := y :: p2') in *. pose proof (zpos _ p2 ltac:(discriminate)) as Z2. destruct (Z.eqb_spec (zlen p2) 0) as [|_]; [lia|]. cbn [rev_].
      match goal with |- context [run_fuel g f ?st p2 false] => destruct (IH p2 st f ltac:(cbn in *; lia) B2 ltac:(discriminate) eq_refl eq_refl eq_refl ltac:(cbn in *; lia)) as [(l & K1 & K2)|(K1 & e & s' & ev2 & K2 & K3)] end.
      * left. exists ((id, v) :: l). split; [apply CONS; auto|]. rewrite K2. cbn [settings_go]. rewrite SE. cbn [c_set c_go c_with_set].
        rewrite !rev_set. destruct (settings_go _ r1 l) as [e2 o]. unfold set_result. destruct o; reflexivity.
      * right. split; [intros l H; destruct (UNCONS l H) as (l' & -> & H'); eapply K1; eauto|]. rewrite K2. cbn [rev_]. eauto.
  - pose proof (entry_err _ _ _ _ _ SE) as ->. destruct (settings_dec _ p2 (le_n _) B2) as [[l H]|H].
    + left. exists ((id, v) :: l). split; [apply CONS; auto|]. cbn [settings_go]. rewrite SE. reflexivity.
    + right. split; [intros l H'; destruct (UNCONS l H') as (l' & -> & H2); eapply H; eauto|]. eexists; eexists; eexists; split; [reflexivity|auto].
  - exfalso. eapply entry_noabort; eauto.
Qed.
Lemma settings_frame s p payload f : at_frame s -> c_seen s = false -> bytes p -> rfc_frame p = Some (SETTINGS, payload, []) -> (2 * length p + 3 <= f)%nat ->
  (exists l, rfc_settings_payload payload l /\
     run_fuel g f s p false = rev_ [CvFrame SETTINGS (zlen payload)] (set_result (hd_state s SETTINGS (zlen payload) CSetId) (settings_go (ce_server E) (c_set s) l))) \/
  ((forall l, ~ rfc_settings_payload payload l) /\
   exists e s' ev, run_fuel g f s p false = RErr e s' ev /\ (e = ERR_H3_FRAME_ERROR \/ e = ERR_H3_SETTINGS_ERROR)).
Proof.
  intros A SE B FR F. destruct (frame_parts _ _ _ B FR) as (p1 & G1 & G2 & BP & LP).
  rewrite (head_run s p SETTINGS p1 (zlen payload) payload f A B G1 G2) by lia.
  unfold c_frame_start. cbv zeta. cbn [c_ty c_seen c_rd c_id c_set c_goaway c_closing c_pushes c_buf]. rewrite SE. change (SETTINGS =? FRAME_SETTINGS) with true. cbn [negb andb].
  destruct payload as [|z q]; [left; exists []; split; [constructor|]; cbn [zlen length]; change (Z.of_nat 0 =? 0) with true; cbv iota; destruct f as [|[|[|f]]]; try lia; reflexivity|].
  set (payload := z :: q) in *. pose proof (zpos _ payload ltac:(discriminate)). destruct (Z.eqb_spec (zlen payload) 0) as [|_]; [lia|].
  match goal with |- context [run_fuel g (f - 2) ?st payload false] =>
    destruct (settings_run _ payload st (f - 2) (le_n _) BP ltac:(discriminate) eq_refl eq_refl eq_refl ltac:(lia)) as [(l & K1 & K2)|(K1 & e & s' & ev & K2 & K3)] end.
  - left. exists l. split; auto. rewrite K2. reflexivity.
  - right. split; auto. rewrite K2. cbn [rev_]. eauto.
Qed.
Lemma other_first s p ty payload f : at_frame s -> c_seen s = false -> bytes p -> rfc_frame p = Some (ty, payload, []) -> ty <> SETTINGS -> (2 <= f)%nat ->
  exists s', run_fuel g f s p false = RErr ERR_H3_MISSING_SETTINGS s' [].
Proof.
  intros A SE B FR T F. destruct (frame_parts _ _ _ B FR) as (p1 & G1 & G2 & BP & LP).
  rewrite (head_run s p ty p1 (zlen payload) payload f A B G1 G2) by lia.
  unfold c_frame_start. cbv zeta. cbn [c_ty c_seen c_rd c_id c_set c_goaway c_closing c_pushes c_buf]. rewrite SE.
  destruct (Z.eqb_spec ty FRAME_SETTINGS) as [->|_]; [contradiction|]. cbn [negb andb]. eexists. reflexivity.
Qed.
End FRAME.

(* what the entries do *)
Lemma last_of_none id l d : ~ In id (map fst l) -> last_of id l d = d.
Proof. revert d. induction l as [|[i v] l IH]; intros d H; cbn; auto. cbn in H. destruct (Z.eqb_spec i id); [subst; tauto|]. apply IH. tauto. Qed.
Definition one (v0 v : Z) (f : Z -> Z) : list Z := if v0 =? 0 then if v =? 0 then [] else [f v] else [].
Lemma one_same f v : one v v f = []. Proof. unfold one. destruct (v =? 0) eqn:Q; rewrite ?Q; reflexivity. Qed.
Lemma caps_app a b : enc_caps (a ++ b) = enc_caps a ++ enc_caps b. Proof. apply flat_map_app. Qed.
Lemma blks_app a b : enc_blocked (a ++ b) = enc_blocked a ++ enc_blocked b. Proof. apply flat_map_app. Qed.
Lemma settings_go_ok sv l : forall r ev r', settings_go sv r l = (ev, Ok r') ->
  Forall (entry_valid sv) l /\
  rs_field r' = last_of SETTINGS_FIELD l (rs_field r) /\ rs_cap r' = last_of SETTINGS_CAP l (rs_cap r) /\
  rs_blocked r' = last_of SETTINGS_BLOCKED l (rs_blocked r) /\ rs_datagram r' = last_of SETTINGS_DATAGRAM l (rs_datagram r) /\
  rs_connect r' = (if sv then last_of SETTINGS_CONNECT l (rs_connect r) else rs_connect r) /\
  (rs_cap r <> 0 -> rs_cap r' = rs_cap r) /\ (rs_blocked r <> 0 -> rs_blocked r' = rs_blocked r) /\
  enc_caps ev = one (rs_cap r) (rs_cap r') (fun v => v) /\ enc_blocked ev = one (rs_blocked r) (rs_blocked r') (Z.min 100) /\
  recv_settings_of ev = [].
Proof.
  induction l as [|[id v] l IH]; intros r ev r'; cbn [settings_go].
  { intros [= <- <-]. rewrite !one_same. cbn. destruct sv; auto 12. }
  destruct (settings_entry sv r id v) as [[r1 e1]|e|] eqn:SE; [|discriminate|discriminate]. destruct (settings_go sv r1 l) as [e2 o] eqn:SG. intros [= <- ->].
  destruct (IH _ _ _ SG) as (K1 & K2 & K3 & K4 & K5 & K6 & K7 & K8 & K9 & K10 & K11). clear IH SG.
  cbn [last_of]. rewrite caps_app, blks_app, K9, K10. unfold recv_settings_of. rewrite flat_map_app. fold (recv_settings_of e2). rewrite K11, app_nil_r.
  unfold settings_entry in SE. unfold entry_valid, reserved_settings. unfold SETTINGS_FIELD, SETTINGS_CAP, SETTINGS_BLOCKED, SETTINGS_CONNECT, SETTINGS_DATAGRAM in *.
  assert (V : forall P : Prop, (Forall (fun e : Z * Z => ~ In (fst e) [2; 3; 4; 5] /\ (fst e = 51 -> snd e = 0 \/ snd e = 1) /\ (fst e = 8 -> sv = true -> snd e = 0 \/ snd e = 1)) l) ->
     ~ In id [2; 3; 4; 5] -> (id = 51 -> v = 0 \/ v = 1) -> (id = 8 -> sv = true -> v = 0 \/ v = 1) -> P ->
     Forall (fun e : Z * Z => ~ In (fst e) [2; 3; 4; 5] /\ (fst e = 51 -> snd e = 0 \/ snd e = 1) /\ (fst e = 8 -> sv = true -> snd e = 0 \/ snd e = 1)) ((id, v) :: l) /\ P) by (intros; split; auto; constructor; auto).
  unfold entry_valid, reserved_settings, SETTINGS_DATAGRAM, SETTINGS_CONNECT in K1.
  destruct (Z.eqb_spec id 6) as [->|N6].
  { injection SE as <- <-. cbn [rs_field rs_cap rs_blocked rs_connect rs_datagram] in *. apply V; auto; try discriminate; [cbn; intuition discriminate|]. cbn. auto 12. }
  destruct (Z.eqb_spec id 1) as [->|N1].
  { destruct (Z.eqb_spec (rs_cap r) 0) as [Q|Q]; cbn [negb] in SE; [|discriminate]. rewrite Q in *. destruct (Z.eqb_spec v 0) as [->|NV]; injection SE as <- <-; cbn [rs_field rs_cap rs_blocked rs_connect rs_datagram] in *;
      (apply V; auto; try discriminate; [cbn; intuition discriminate|]); cbn.
    - rewrite Q in *. auto 12.
    - rewrite K7 by auto. destruct (v =? 0) eqn:QV; [apply Z.eqb_eq in QV; congruence|]. unfold one. rewrite QV. cbn. repeat split; auto. rewrite <- K3, K7 by auto. reflexivity. congruence. }
  destruct (Z.eqb_spec id 7) as [->|N7].
  { destruct (Z.eqb_spec (rs_blocked r) 0) as [Q|Q]; cbn [negb] in SE; [|discriminate]. rewrite Q in *. destruct (Z.eqb_spec v 0) as [->|NV]; injection SE as <- <-; cbn [rs_field rs_cap rs_blocked rs_connect rs_datagram] in *;
      (apply V; auto; try discriminate; [cbn; intuition discriminate|]); cbn.
    - rewrite Q in *. auto 12.
    - rewrite K8 by auto. destruct (v =? 0) eqn:QV; [apply Z.eqb_eq in QV; congruence|]. unfold one. rewrite QV. cbn. repeat split; auto. rewrite <- K4, K8 by auto. reflexivity. congruence. }
  destruct (Z.eqb_spec id 8) as [->|N8].
  { destruct sv; cbn [negb] in SE.
    - destruct (Z.eqb_spec v 0) as [->|NV].
      + destruct (Z.eqb_spec (rs_connect r) 0) as [Q|Q]; cbn [negb] in SE; [|discriminate]. injection SE as <- <-. cbn [rs_field rs_cap rs_blocked rs_connect rs_datagram] in *.
        apply V; auto; try discriminate; [cbn; intuition discriminate|]. cbn. auto 12.
      + destruct (Z.eqb_spec v 1) as [->|N]; [|discriminate]. injection SE as <- <-. cbn [rs_field rs_cap rs_blocked rs_connect rs_datagram] in *.
        apply V; auto; try discriminate; [cbn; intuition discriminate|]. cbn. auto 12.
    - injection SE as <- <-. apply V; auto; try discriminate; [cbn; intuition discriminate|]. cbn. auto 12. }
  destruct (Z.eqb_spec id 51) as [->|N51].
  { destruct (Z.eqb_spec v 0) as [->|NV]; [|destruct (Z.eqb_spec v 1) as [->|NV1]; [|discriminate]]; cbn [orb] in SE; injection SE as <- <-; cbn [rs_field rs_cap rs_blocked rs_connect rs_datagram] in *;
      (apply V; auto; try discriminate; [cbn; intuition discriminate|]); cbn; auto 12. }
  destruct (Z.eqb_spec id 2); [discriminate|]. destruct (Z.eqb_spec id 3); [discriminate|]. destruct (Z.eqb_spec id 4); [discriminate|]. destruct (Z.eqb_spec id 5); [discriminate|].
  cbn [orb] in SE. injection SE as <- <-. apply V; auto; try congruence; [cbn; intuition congruence|]. cbn. auto 12.
Qed.
Lemma settings_go_nodup sv l : forall r, NoDup (map fst l) -> Forall (entry_valid sv) l ->
  (In SETTINGS_CAP (map fst l) -> rs_cap r = 0) -> (In SETTINGS_BLOCKED (map fst l) -> rs_blocked r = 0) -> (In SETTINGS_CONNECT (map fst l) -> rs_connect r = 0) ->
  exists ev r', settings_go sv r l = (ev, Ok r').
Proof.
  induction l as [|[id v] l IH]; intros r ND FV C1 C2 C3; cbn [settings_go]; [eauto|]. cbn [map fst] in *.
  apply NoDup_cons_iff in ND as [ND1 ND2]. apply Forall_cons_iff in FV as [FV1 FV2].
  assert (EN : exists r1 e1, settings_entry sv r id v = Ok (r1, e1) /\ (id <> SETTINGS_CAP -> rs_cap r1 = rs_cap r) /\ (id <> SETTINGS_BLOCKED -> rs_blocked r1 = rs_blocked r) /\ (id <> SETTINGS_CONNECT -> rs_connect r1 = rs_connect r)).
  { destruct FV1 as (V1 & V2 & V3). unfold settings_entry, reserved_settings, SETTINGS_FIELD, SETTINGS_CAP, SETTINGS_BLOCKED, SETTINGS_CONNECT, SETTINGS_DATAGRAM in *. cbn [fst snd In] in *.
    destruct (Z.eqb_spec id 6) as [->|N6]; [do 2 eexists; split; [reflexivity|]; cbn; intuition congruence|].
    destruct (Z.eqb_spec id 1) as [->|N1]; [rewrite C1 by auto; cbn [Z.eqb negb]; destruct (v =? 0); do 2 eexists; (split; [reflexivity|]); cbn; intuition congruence|].
    destruct (Z.eqb_spec id 7) as [->|N7]; [rewrite C2 by auto; cbn [Z.eqb negb]; destruct (v =? 0); do 2 eexists; (split; [reflexivity|]); cbn; intuition congruence|].
    destruct (Z.eqb_spec id 8) as [->|N8].
    { destruct sv; cbn [negb]; [|do 2 eexists; split; [reflexivity|]; cbn; intuition congruence]. rewrite C3 by auto. cbn [Z.eqb negb].
      destruct (V3 eq_refl eq_refl) as [-> | ->]; cbn [Z.eqb]; do 2 eexists; (split; [reflexivity|]); cbn; intuition congruence. }
    destruct (Z.eqb_spec id 51) as [->|N51]; [destruct (V2 eq_refl) as [-> | ->]; cbn; do 2 eexists; (split; [reflexivity|]); cbn; intuition congruence|].
    destruct (Z.eqb_spec id 2); [exfalso; apply V1; subst; auto 7|]. destruct (Z.eqb_spec id 3); [exfalso; apply V1; subst; auto 7|]. destruct (Z.eqb_spec id 4); [exfalso; apply V1; subst; auto 7|]. destruct (Z.eqb_spec id 5); [exfalso; apply V1; subst; auto 7|].
    do 2 eexists; split; [reflexivity|]; cbn; intuition congruence. }
  destruct EN as (r1 & e1 & SE & E1 & E2 & E3). rewrite SE.
  destruct (IH r1) as (ev & r' & K); auto.
  - intros H. rewrite E1; [apply C1; right; exact H|intros Q; apply ND1; rewrite Q; exact H].
  - intros H. rewrite E2; [apply C2; right; exact H|intros Q; apply ND1; rewrite Q; exact H].
  - intros H. rewrite E3; [apply C3; right; exact H|intros Q; apply ND1; rewrite Q; exact H].
  - rewrite K. eauto.
Qed.
Lemma settings_go_err sv l : forall r, match snd (settings_go sv r l) with Ok _ => True | Err e => e = ERR_H3_SETTINGS_ERROR | Abort => False end.
Proof.
  induction l as [|[id v] l IH]; intros r; cbn; auto. destruct (settings_entry sv r id v) as [[r1 e1]|e|] eqn:SE.
  - specialize (IH r1). destruct (settings_go sv r1 l). exact IH.
  - cbn. eapply entry_err; eauto.
  - exfalso. eapply entry_noabort; eauto.
Qed.

(* ---- from the start of the stream ---- *)
Lemma one_piece E s p : read_pieces E s [p] = run (c_step false E) 3 c_rank s p false.
Proof. unfold read_pieces, feed, seq_res. destruct (run _ _ _ s p false); cbn [rev_]; rewrite ?app_nil_r; reflexivity. Qed.
Definition tame (E : cenv) (ev : list cev) : Prop := ce_server E = false \/ no_long_value ev.
Lemma reach_inv E ps s ev : bytes (concat ps) -> read_pieces E cst_init ps = ROk s ev -> tame E ev -> c_inv E s.
Proof.
  intros B R T. assert (F : feed (c_step true E) 3 c_rank cst_init ps = ROk s ev).
  { unfold read_pieces in R. destruct T as [T|T]; [rewrite <- client_feed; auto using c_inv_init|].
    rewrite <- R. apply feed_ideal; auto using c_inv_init; [discriminate|rewrite R; exact T|rewrite R; discriminate]. }
  pose proof (feed_concat (c_step true E) 3 c_rank (c_inv E) c_ce (step_ok_all E) ps cst_init (c_inv_init E) B) as K. rewrite F in K.
  pose proof (run_good (c_step true E) 3 c_rank (c_inv E) c_ce (step_ok_all E) cst_init (concat ps) false (c_inv_init E) B ltac:(discriminate)) as G.
  destruct (run (c_step true E) 3 c_rank cst_init (concat ps) false); try contradiction. destruct K as [<- _]. exact G.
Qed.
Lemma last_cons_ne A (x : A) l d : last (x :: l) d = last l x.
Proof. revert x d; induction l as [|y l IH]; intros x d; [reflexivity|]. change (last (x :: y :: l) d) with (last (y :: l) d). rewrite !IH. reflexivity. Qed.
Lemma leads_goaway sv st evs st' : cleads sv st evs st' -> snd st' = last (shutdowns_of evs) (snd st).
Proof.
  induction 1 as [st|st e st1 evs st' N C IH]; [reflexivity|]. rewrite IH. inversion N; subst; cbn [shutdowns_of flat_map app]; auto.
  change (flat_map _ evs) with (shutdowns_of evs). cbn [snd]. rewrite last_cons_ne. reflexivity.
Qed.
Lemma leads_frames sv st evs st' : cleads sv st evs st' -> fst st = Fresh -> (frames_of evs = [] <-> fst st' = Fresh).
Proof.
  intros C F. inversion C as [|? e st1 evs1 ? N C1]; subst; [cbn; tauto|]. inversion N; subst; cbn in F; try congruence; try (subst; contradiction).
  destruct (leads_after _ _ _ _ C1 ltac:(discriminate)) as (_ & _ & K). cbn. split; [discriminate|tauto].
Qed.
Lemma boundary E ps s ev : bytes (concat ps) -> read_pieces E cst_init ps = ROk s ev -> tame E ev -> at_frame s ->
  c_buf s = [] /\ c_goaway s = last (shutdowns_of ev) (2 ^ 62) /\ (c_seen s = true <-> frames_of ev <> []).
Proof.
  intros B R T [A1 A2]. pose proof (reach_inv E ps s ev B R T) as (_ & _ & _ & _ & I). rewrite A1 in I. split; auto.
  pose proof (feed_trace E ps cst_init _ r_inv_init B (clink_init _)) as K. rewrite R in K. destruct K as (_ & st & C & L1 & L2). rewrite A1 in L2.
  split; [rewrite <- L1; apply (leads_goaway _ _ _ _ C)|]. pose proof (leads_frames _ _ _ _ C eq_refl) as LF.
  destruct (c_seen s); split; intros H; auto; try discriminate; try (rewrite LF; destruct (fst st); try contradiction; discriminate). exfalso. apply H. apply LF. exact L2.
Qed.
Theorem frame_at E ps s ev p ty payload : bytes (concat ps) -> read_pieces E cst_init ps = ROk s ev -> tame E ev -> at_frame s -> frames_of ev <> [] ->
  bytes p -> rfc_frame p = Some (ty, payload, []) ->
  match ctl_frame (ce_server E) (parse_priority (ce_sf E) (mk_pri 3 0)) (ce_max E) (last (shutdowns_of ev) (2 ^ 62)) (c_pushes s) ty payload with
  | Some (CtlOk cbs g' n') => exists s' ev', read_pieces E s [p] = ROk s' ev' /\ ctl_callbacks ev' = cbs /\ at_frame s' /\
      c_goaway s' = g' /\ c_pushes s' = n' /\ c_set s' = c_set s /\ (ty = GOAWAY -> c_closing s' = true)
  | Some (CtlErr e) => exists s' ev', read_pieces E s [p] = RErr e s' ev' /\ ctl_callbacks ev' = []
  | None => True
  end.
Proof.
  intros B R T A F BP FR. destruct (boundary E ps s ev B R T A) as (K1 & K2 & K3). rewrite one_piece. unfold run. rewrite <- K2.
  destruct (frame_parts _ _ _ BP FR) as (_ & _ & _ & _ & L).
  pose proof (frame_one E s p ty payload (S (measure 3 c_rank s p)) A (proj2 K3 F) K1 BP FR ltac:(unfold measure; lia)) as H.
  destruct (ctl_frame _ _ _ _ _ _ _) as [[cbs g' n'|e]|]; auto. destruct H as (s' & ev' & H1 & H2 & H3 & H4 & H5 & H6 & H7 & H8 & H9). exists s', ev'. auto 12.
Qed.
Theorem goaway_at E ps s ev p payload id : bytes (concat ps) -> read_pieces E cst_init ps = ROk s ev -> tame E ev -> at_frame s -> frames_of ev <> [] ->
  bytes p -> rfc_frame p = Some (GOAWAY, payload, []) -> rfc_varint payload = Some (id, []) ->
  let last := last (shutdowns_of ev) (2 ^ 62) in
  (id <= last /\ (ce_server E = false -> id mod 4 = 0) -> exists s' ev', read_pieces E s [p] = ROk s' ev' /\ ctl_callbacks ev' = [CvShutdown id] /\ c_closing s' = true) /\
  (last < id \/ (ce_server E = false /\ id mod 4 <> 0) -> exists s' ev', read_pieces E s [p] = RErr ERR_H3_ID_ERROR s' ev' /\ ctl_callbacks ev' = []).
Proof.
  intros B R T A F BP FR V lst. pose proof (frame_at E ps s ev p GOAWAY payload B R T A F BP FR) as H. cbv [ctl_frame] in H. cbn [existsb orb] in H.
  change (GOAWAY =? SETTINGS) with false in H. change (existsb (Z.eqb GOAWAY) never_on_control) with false in H. change (GOAWAY =? PRIORITY_UPDATE_PUSH) with false in H. change (GOAWAY =? GOAWAY) with true in H. cbn [orb] in H. rewrite V in H. fold lst in H.
  split.
  - intros [H1 H2]. destruct (Z.ltb_spec lst id); [lia|]. cbn [orb] in H. destruct (ce_server E); cbn [negb andb] in H; [|rewrite H2 in H by auto; cbn [Z.eqb negb] in H];
      destruct H as (s' & ev' & K1 & K2 & K3 & K4 & K5 & K6 & K7); exists s', ev'; auto.
  - intros [H1|[H1 H2]].
    + destruct (Z.ltb_spec lst id); [|lia]. exact H.
    + rewrite H1 in H. apply Z.eqb_neq in H2. rewrite H2 in H. cbn [negb andb] in H. rewrite orb_true_r in H. exact H.
Qed.
Theorem first_other E p ty payload : bytes p -> rfc_frame p = Some (ty, payload, []) -> ty <> SETTINGS ->
  exists s', read_pieces E cst_init [p] = RErr ERR_H3_MISSING_SETTINGS s' [].
Proof.
  intros B FR T. rewrite one_piece. unfold run. destruct (frame_parts _ _ _ B FR) as (_ & _ & _ & _ & L).
  eapply other_first; eauto; [split; reflexivity|unfold measure; lia].
Qed.
Theorem settings_applied E p payload l s ev : bytes p -> rfc_frame p = Some (SETTINGS, payload, []) -> rfc_settings_payload payload l ->
  read_pieces E cst_init [p] = ROk s ev ->
  Forall (entry_valid (ce_server E)) l /\ at_frame s /\ exists r, applied (ce_server E) l r /\ c_set s = r /\ recv_settings_of ev = [r] /\
  enc_caps ev = (if rs_cap r =? 0 then [] else [rs_cap r]) /\ enc_blocked ev = (if rs_blocked r =? 0 then [] else [Z.min 100 (rs_blocked r)]).
Proof.
  intros B FR SP. rewrite one_piece. unfold run.
  destruct (settings_frame E cst_init p payload (S (measure 3 c_rank cst_init p)) ltac:(split; reflexivity) eq_refl B FR) as [(l' & K1 & K2)|(K1 & _)].
  { destruct (frame_parts _ _ _ B FR) as (_ & _ & _ & _ & L). unfold measure. cbn [c_rank cst_init c_rd]. lia. }
  2:{ intros _. exfalso. eapply K1; eauto. }
  assert (l' = l).
  { clear -K1 SP. revert l' K1. induction SP; intros l' H'; inversion H'; subst; auto; try discriminate. rewrite H in *. injection H1 as <- <-. rewrite H0 in *. injection H2 as <- <-. f_equal. auto. }
  subst l'. rewrite K2. destruct (settings_go (ce_server E) (c_set cst_init) l) as [e2 [r|e|]] eqn:SG; cbn [set_result rev_]; intros [= <- <-].
  destruct (settings_go_ok _ _ _ _ _ SG) as (J1 & J2 & J3 & J4 & J5 & J6 & J7 & J8 & J9 & J10 & J11). split; auto. split; [split; reflexivity|].
  exists r. change (2 ^ 62 - 1) with max_varint. split; [unfold applied; change (2 ^ 62 - 1) with max_varint; auto|]. split; [reflexivity|].
  unfold recv_settings_of, enc_caps, enc_blocked in *. cbn [flat_map app]. rewrite !flat_map_app, J11, J9, J10. cbn. rewrite !app_nil_r. auto.
Qed.
Theorem settings_accepted E p payload l : bytes p -> rfc_frame p = Some (SETTINGS, payload, []) -> rfc_settings_payload payload l ->
  (NoDup (map fst l) -> Forall (entry_valid (ce_server E)) l -> exists s ev, read_pieces E cst_init [p] = ROk s ev) /\
  (~ Forall (entry_valid (ce_server E)) l -> exists s ev, read_pieces E cst_init [p] = RErr ERR_H3_SETTINGS_ERROR s ev).
Proof.
  intros B FR SP. rewrite one_piece. unfold run.
  destruct (settings_frame E cst_init p payload (S (measure 3 c_rank cst_init p)) ltac:(split; reflexivity) eq_refl B FR) as [(l' & K1 & K2)|(K1 & _)].
  { destruct (frame_parts _ _ _ B FR) as (_ & _ & _ & _ & L). unfold measure. cbn [c_rank cst_init c_rd]. lia. }
  2:{ exfalso. eapply K1; eauto. }
  assert (l' = l).
  { clear -K1 SP. revert l' K1. induction SP; intros l' H'; inversion H'; subst; auto; try discriminate. rewrite H in *. injection H1 as <- <-. rewrite H0 in *. injection H2 as <- <-. f_equal. auto. }
  subst l'. rewrite K2. split.
  - intros ND FV. destruct (settings_go_nodup (ce_server E) l (c_set cst_init) ND FV ltac:(reflexivity) ltac:(reflexivity) ltac:(reflexivity)) as (ev & r' & ->). cbn. eauto.
  - intros NF. pose proof (settings_go_err (ce_server E) l (c_set cst_init)) as SE. destruct (settings_go (ce_server E) (c_set cst_init) l) as [e2 [r|e|]] eqn:SG; cbn [snd] in SE; [|subst; cbn; eauto|contradiction].
    exfalso. apply NF. apply settings_go_ok in SG. tauto.
Qed.
Theorem settings_unparsable E p payload : bytes p -> rfc_frame p = Some (SETTINGS, payload, []) -> (forall l, ~ rfc_settings_payload payload l) ->
  exists e s ev, read_pieces E cst_init [p] = RErr e s ev /\ (e = ERR_H3_FRAME_ERROR \/ e = ERR_H3_SETTINGS_ERROR).
Proof.
  intros B FR SP. rewrite one_piece. unfold run.
  destruct (settings_frame E cst_init p payload (S (measure 3 c_rank cst_init p)) ltac:(split; reflexivity) eq_refl B FR) as [(l' & K1 & K2)|(K1 & K2)]; auto.
  - destruct (frame_parts _ _ _ B FR) as (_ & _ & _ & _ & L). unfold measure. cbn [c_rank cst_init c_rd]. lia.
  - exfalso. eapply SP; eauto.
Qed.
