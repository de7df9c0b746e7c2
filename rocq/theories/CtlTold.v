(* The control stream along a history of API calls, frame by frame *)
From Verif Require Import Base BaseLemmas Chunk Chunk2 ConvModel ConvSpec ConvProofs RdVarint QpackTabModel QpackDecModel HttpModel BidiModel BidiHist ControlModel ControlSpec ControlProofs ControlTrace ControlFrame ConnModel ConnHist ConnRead ConnUni Props_Uni SafeMax CtlApiSpec CtlApi.
Open Scope Z_scope.

(* as ideal_of_real, but the trace looked at is the one of the variant *)
Lemma ideal_eq E f : forall s p busy, c_inv E s -> bytes p -> (busy = true -> c_ce s) -> fits s ->
  let r := run_fuel (c_step false E) f s p busy in let i := run_fuel (c_step true E) f s p busy in
  no_long_value (evs_ i) -> i <> RAbort -> r <> RAbort -> i = r /\ (forall s' ev, r = ROk s' ev -> fits s').
Proof.
  induction f as [|f IH]; intros s p busy I B BC F r i; [unfold r, i; destruct p, busy; cbn; try congruence; intros _ _ _; split; auto; intros s' ev [= <- _]; auto|].
  assert (D : (p = [] /\ busy = false) \/ (p <> [] \/ busy = true) /\ forall g : cst -> list Z -> sres cst cev, run_fuel g (S f) s p busy = turn g s p (run_fuel g f)).
  { destruct p; [destruct busy|]; [right; split; auto|left; auto|right; split; [left; discriminate|reflexivity]]. }
  destruct D as [[-> ->]|[RN D]]; [unfold r, i; cbn; intros _ _ _; split; auto; intros s' ev [= <- _]; auto|]. unfold r, i. rewrite !D. unfold turn. clear r i.
  assert (RN' : runnable c_ce s p) by (destruct RN; [left|right]; auto).
  pose proof (step_ok_all E s p I B RN') as OK.
  destruct (step_real E s p I F) as [ST|(ST & _)]; [|rewrite ST; intros _ _ NA; exfalso; apply NA; reflexivity].
  rewrite ST in *. destruct (c_step true E s p) as [s1 r1 b1 e1|s1 e1|s1 r1 e1|e s1 e1|] eqn:S1; cbn [evs_ step_ok] in *; try (intros _ _ _; split; [reflexivity|]; intros ? ? [=]; fail).
  - destruct OK as (O1 & O2 & O3 & O4 & O5).
    set (q := run_fuel (c_step true E) f s1 r1 b1) in *. set (q' := run_fuel (c_step false E) f s1 r1 b1) in *. intros NL NI NA.
    assert (NQ : q <> RAbort) by (intros Q; rewrite Q in NI; cbn in NI; congruence).
    assert (NQ' : q' <> RAbort) by (intros Q; rewrite Q in NA; cbn in NA; congruence).
    destruct (no_long_rev _ _ NL NQ) as [NL1 NL2].
    pose proof (step_fits E s p s1 r1 b1 e1 I F S1 NL1) as F1.
    destruct (IH s1 r1 b1 O1 O2 O4 F1) as [K1 K2]; auto. fold q q' in K1, K2.
    rewrite K1. split; [reflexivity|]. intros s' ev Q. destruct q' eqn:Qq; cbn [rev_] in Q; try discriminate. injection Q as <- _. eapply K2; eauto.
  - intros _ _ _. split; [reflexivity|]. intros s' ev [= <- _]. destruct p; [|eapply step_more_fits; eauto; discriminate].
    destruct RN as [RN|RN]; [congruence|]. specialize (BC RN). unfold c_ce in BC. unfold c_step in S1. rewrite BC in S1. unfold c_ign in S1.
    destruct (_ =? 0) in S1; [discriminate|]. injection S1 as <- _. intros H. discriminate.
Qed.
Section Told.
Variable E : cenv.
Notation ideal := (c_step true E).
Notation ifeed := (feed (c_step true E) 3 c_rank).
Notation irun := (run (c_step true E) 3 c_rank).
Notation rrun := (run (c_step false E) 3 c_rank).
Definition short (ev : list cev) : Prop := ce_server E = true -> no_long_value ev.
Lemma irun_eq s p s' ev : c_inv E s -> fits s -> bytes p -> irun s p false = ROk s' ev -> short ev -> rrun s p false <> RAbort -> rrun s p false = ROk s' ev.
Proof.
  intros I F B R SH NA. destruct (ce_server E) eqn:SV.
  - destruct (ideal_eq E (S (measure 3 c_rank s p)) s p false I B ltac:(discriminate) F) as [Q _].
    + unfold run in R. rewrite R. cbn [evs_]. auto.
    + unfold run in R. rewrite R. discriminate.
    + exact NA.
    + unfold run in *. congruence.
  - unfold run in *. rewrite (client_run E _ SV s p false I B ltac:(discriminate)). exact R.
Qed.
Lemma short_app a b : short (a ++ b) -> short a /\ short b.
Proof. intros H. split; intros SV; specialize (H SV); apply Forall_app in H; tauto. Qed.
Lemma ifeed_cons s p ps s' ev : ifeed s (p :: ps) = ROk s' ev -> exists s1 e1 e2, irun s p false = ROk s1 e1 /\ ifeed s1 ps = ROk s' e2 /\ ev = e1 ++ e2.
Proof.
  cbn [feed]. destruct (irun s p false) as [s1 e1| | |] eqn:R; cbn [seq_res]; try discriminate. destruct (ifeed s1 ps) as [s2 e2| | |] eqn:R2; cbn [rev_]; try discriminate.
  intros [= <- <-]. exists s1, e1, e2. auto.
Qed.
Lemma irun_inv s p s' ev : c_inv E s -> bytes p -> irun s p false = ROk s' ev -> c_inv E s'.
Proof. intros I B R. pose proof (run_good (c_step true E) 3 c_rank (c_inv E) c_ce (step_ok_all E) s p false I B ltac:(discriminate)) as G. rewrite R in G. exact G. Qed.
Lemma frame_fits s : at_frame s -> fits s.
Proof. intros [A _] H. congruence. Qed.
Lemma callbacks_app a b : ctl_callbacks (a ++ b) = ctl_callbacks a ++ ctl_callbacks b.
Proof. apply filter_app. Qed.
Lemma long_frame p ty payload s : bytes p -> rfc_frame p = Some (ty, payload, []) -> (6 <= S (measure 3 c_rank s p))%nat.
Proof. intros B FR. destruct (frame_parts _ _ _ B FR) as (_ & _ & _ & _ & L). unfold measure. lia. Qed.
Lemma told_run g n bs cbs g' n' rest : ctl_told (ce_server E) (parse_priority (ce_sf E) (mk_pri 3 0)) (ce_max E) g n bs cbs g' n' rest ->
  forall s s' ev, at_frame s -> c_seen s = true -> c_buf s = [] -> c_goaway s = g -> c_pushes s = n -> c_inv E s -> bytes bs -> ifeed s [bs] = ROk s' ev -> short ev ->
  exists e1 s1 e2, ev = e1 ++ e2 /\ ctl_callbacks e1 = cbs /\ ifeed s1 [rest] = ROk s' e2 /\ bytes rest /\
    at_frame s1 /\ c_seen s1 = true /\ c_buf s1 = [] /\ c_goaway s1 = g' /\ c_pushes s1 = n' /\ c_inv E s1.
Proof.
  induction 1 as [g n bs|g n p ty payload cbs g1 n1 bs evs g' n' rest FR CF T IH]; intros s s' ev A SE BU G P I B R SH.
  - exists [], s, ev. exact (conj eq_refl (conj eq_refl (conj R (conj B (conj A (conj SE (conj BU (conj G (conj P I))))))))).
  - apply Forall_app in B as [B1 B2].
    assert (R2 : ifeed s [p; bs] = ROk s' ev). { rewrite <- R. apply ideal_cut; [exact I| |]; cbn; rewrite !app_nil_r; [apply Forall_app; auto|reflexivity]. }
    apply ifeed_cons in R2 as (s1 & e1 & e2 & R1 & R2 & ->). destruct (short_app _ _ SH) as [SH1 SH2].
    pose proof (frame_one E s p ty payload (S (measure 3 c_rank s p)) A SE BU B1 FR (long_frame _ _ _ s B1 FR)) as H. rewrite G, P, CF in H.
    destruct H as (t & ev & H1 & H2 & H3 & H4 & H5 & H6 & H7 & _ & _).
    assert (Q : rrun s p false = ROk s1 e1) by (apply irun_eq; auto using frame_fits; unfold run; rewrite H1; discriminate).
    unfold run in Q. rewrite H1 in Q. injection Q as <- <-.
    pose proof (irun_inv s p t ev I B1 R1) as I1.
    destruct (IH t s' e2 H3 H4 H5 H6 H7 I1 B2 R2 SH2) as (f1 & t2 & f2 & -> & K1 & K2).
    exists (ev ++ f1), t2, f2. rewrite app_assoc, callbacks_app, H2, K1. tauto.
Qed.
(* a frame that must be refused has not been received *)
Lemma told_refused s s' ev p ty payload tl e : at_frame s -> c_seen s = true -> c_buf s = [] -> c_inv E s -> bytes (p ++ tl) -> ifeed s [p ++ tl] = ROk s' ev -> short ev ->
  rfc_frame p = Some (ty, payload, []) -> ctl_frame (ce_server E) (parse_priority (ce_sf E) (mk_pri 3 0)) (ce_max E) (c_goaway s) (c_pushes s) ty payload = Some (CtlErr e) -> False.
Proof.
  intros A SE BU I B R SH FR CF. pose proof B as B'. apply Forall_app in B' as [B1 B2].
  assert (R2 : ifeed s [p; tl] = ROk s' ev). { rewrite <- R. apply ideal_cut; [exact I| |]; cbn; rewrite !app_nil_r; [exact B|reflexivity]. }
  apply ifeed_cons in R2 as (s1 & e1 & e2 & R1 & R2 & ->). destruct (short_app _ _ SH) as [SH1 SH2].
  pose proof (frame_one E s p ty payload (S (measure 3 c_rank s p)) A SE BU B1 FR (long_frame _ _ _ s B1 FR)) as H. rewrite CF in H. destruct H as (t & ev & H1 & _).
  assert (Q : rrun s p false = ROk s1 e1) by (apply irun_eq; auto using frame_fits; unfold run; rewrite H1; discriminate).
  unfold run in Q. rewrite H1 in Q. discriminate.
Qed.
(* the first frame *)
Lemma told_first s' ev p ty payload tl : bytes (p ++ tl) -> ifeed cst_init [p ++ tl] = ROk s' ev -> short ev -> rfc_frame p = Some (ty, payload, []) ->
  ty = SETTINGS /\ exists l r e1 s1 e2, rfc_settings_payload payload l /\ Forall (entry_valid (ce_server E)) l /\ applied (ce_server E) l r /\ ev = e1 ++ e2 /\ ifeed s1 [tl] = ROk s' e2 /\
    recv_settings_of e1 = [r] /\ enc_caps e1 = (if rs_cap r =? 0 then [] else [rs_cap r]) /\ enc_blocked e1 = (if rs_blocked r =? 0 then [] else [Z.min 100 (rs_blocked r)]) /\ shutdowns_of e1 = [] /\
    (forall id p, ~ In (CvPriority id p) e1) /\
    at_frame s1 /\ c_seen s1 = true /\ c_buf s1 = [] /\ c_goaway s1 = 2 ^ 62 /\ c_pushes s1 = 0 /\ c_inv E s1.
Proof.
  intros B R SH FR. pose proof B as B'. apply Forall_app in B' as [B1 B2].
  assert (R2 : ifeed cst_init [p; tl] = ROk s' ev). { rewrite <- R. apply ideal_cut; [apply c_inv_init| |]; cbn; rewrite !app_nil_r; [exact B|reflexivity]. }
  apply ifeed_cons in R2 as (s1 & e1 & e2 & R1 & R2 & ->). destruct (short_app _ _ SH) as [SH1 SH2].
  assert (A0 : at_frame cst_init) by (split; reflexivity).
  destruct (Z.eq_dec ty SETTINGS) as [->|N].
  2:{ exfalso. destruct (first_other E p ty payload B1 FR N) as (t & Q). rewrite one_piece in Q.
      assert (Q2 : rrun cst_init p false = ROk s1 e1) by (apply irun_eq; auto using frame_fits, c_inv_init; rewrite Q; discriminate). congruence. }
  split; [reflexivity|].
  destruct (settings_frame E cst_init p payload (S (measure 3 c_rank cst_init p)) A0 eq_refl B1 FR) as [(l & K1 & K2)|(K1 & e & t & ev & K2 & _)].
  { destruct (frame_parts _ _ _ B1 FR) as (_ & _ & _ & _ & L). unfold measure. cbn [c_rank cst_init c_rd]. lia. }
  2:{ exfalso. assert (Q2 : rrun cst_init p false = ROk s1 e1) by (apply irun_eq; auto using frame_fits, c_inv_init; unfold run; rewrite K2; discriminate). unfold run in Q2. congruence. }
  pose proof (settings_go_err (ce_server E) l (c_set cst_init)) as SE.
  assert (Q2 : rrun cst_init p false = ROk s1 e1).
  { apply irun_eq; auto using frame_fits, c_inv_init. unfold run. rewrite K2. destruct (settings_go (ce_server E) (c_set cst_init) l) as [f2 [r|e|]]; cbn in *; [discriminate..|contradiction]. }
  pose proof Q2 as Q3. unfold run in Q3. rewrite K2 in Q3.
  destruct (settings_applied E p payload l s1 e1 B1 FR K1 ltac:(rewrite one_piece; exact Q2)) as (J1 & J2 & r & J3 & J4 & J5 & J6 & J7).
  destruct (settings_go (ce_server E) (c_set cst_init) l) as [f2 [r2|e|]] eqn:SG; cbn [set_result rev_] in Q3; try discriminate. injection Q3 as <- <-.
  assert (NS : forall l r0 f r', settings_go (ce_server E) r0 l = (f, Ok r') -> shutdowns_of f = [] /\ forall id p, ~ In (CvPriority id p) f).
  { clear. induction l as [|[i v] l IH]; intros r0 f r'; cbn [settings_go]; [intros [= <- _]; split; [reflexivity|auto]|].
    destruct (settings_entry (ce_server E) r0 i v) as [[r1 f1]|e|] eqn:SE; try discriminate. destruct (settings_go (ce_server E) r1 l) as [f2 o] eqn:SG. intros [= <- ->].
    destruct (IH _ _ _ SG) as [A1 A2]. assert (shutdowns_of f1 = [] /\ forall id p, ~ In (CvPriority id p) f1) as [C1 C2].
    { revert SE. unfold settings_entry. repeat match goal with |- context [if ?c then _ else _] => destruct c end; intros [= _ <-]; split; auto; intros id p; cbn; intuition discriminate. }
    unfold shutdowns_of in *. rewrite flat_map_app, C1, A1. split; [reflexivity|]. intros id p X. apply in_app_iff in X as [X|X]; [eapply C2|eapply A2]; eauto. }
  destruct (NS _ _ _ _ SG) as [NS1 NS2].
  eexists l, r, _, _, e2. split; [exact K1|]. split; [exact J1|]. split; [exact J3|]. split; [reflexivity|]. split; [exact R2|]. split; [exact J5|]. split; [exact J6|]. split; [exact J7|].
  split. { unfold shutdowns_of in *. cbn [flat_map app]. rewrite flat_map_app, NS1. reflexivity. }
  split. { intros id q X. cbn [app In] in X. destruct X as [X|X]; [discriminate|]. apply in_app_iff in X as [X|[X|[]]]; [eapply NS2; eauto|discriminate]. }
  match type of J2 with at_frame ?t => assert (I1 : c_inv E t) by (eapply irun_inv; [apply c_inv_init|exact B1|exact R1]) end. split; [exact J2|]. cbn [c_seen c_buf c_goaway c_pushes]. split; [reflexivity|]. split; [reflexivity|]. split; [reflexivity|]. split; [reflexivity|exact I1].
Qed.
End Told.

Section Hist.
Context (K : kenv).
Lemma read_all_trace ps : forall s st, r_inv s -> bytes (concat (map snd ps)) -> clink (ke_server K) s st ->
  match read_all K s ps with
  | ROk s' ev => r_inv s' /\ exists st', cleads (ke_server K) st ev st' /\ clink (ke_server K) s' st'
  | _ => True
  end.
Proof.
  induction ps as [|[n p] ps IH]; intros s st I B L; cbn [read_all]; [split; auto; exists st; split; auto; constructor|].
  cbn [map concat snd] in B. apply Forall_app in B as [B1 B2].
  pose proof (run_trace (env K n) (S (measure 3 c_rank s p)) s p false st I B1 L) as T. unfold read_control, run.
  destruct (run_fuel _ _ s p false) as [s1 e1|s1 r1 e1|e s1 e1|]; cbn [seq_res]; auto.
  destruct T as (I1 & st1 & C1 & L1). specialize (IH s1 st1 I1 B2 L1).
  destruct (read_all K s1 ps) as [s2 e2|s2 r2 e2|e s2 e2|]; cbn [rev_]; auto.
  destruct IH as (I2 & st2 & C2 & L2). split; auto. exists st2. split; auto. eapply cleads_app; eauto.
Qed.
Lemma bytes_exist h c : history K h c -> exists bs, control_bytes K h c bs.
Proof.
  intros H. destruct (k_copen c) eqn:O.
  - destruct (proj1 (flag_peer K h c H 0 (or_introl eq_refl)) O) as (id & PS). eexists. left. exists id. split; [exact PS|reflexivity].
  - exists []. right. split; auto. intros id PS. assert (k_copen c = true) by (apply (proj2 (flag_peer K h c H 0 (or_introl eq_refl))); eauto). congruence.
Qed.
Lemma api_trace h c : history K h c -> exists st, cleads (ke_server K) (Fresh, 2 ^ 62) (control_events h) st.
Proof.
  intros H. destruct (bytes_exist h c H) as (bs & CB). destruct (api_pieces K (fun _ => True) h c bs H (fun _ _ _ _ _ => Logic.I) CB) as (ps & P1 & P2 & _ & P4).
  pose proof (read_all_trace ps cst_init _ r_inv_init ltac:(rewrite P1; exact P2) (clink_init _)) as T. rewrite P4 in T. destruct T as (_ & st & C & _). eauto.
Qed.
Lemma client_limit h c : history K h c -> ke_server K = false -> limit_is K h 0.
Proof.
  intros H CL a x b E _. destruct (history_split K h c H a x b E) as (c1 & H1 & _). rewrite <- (hist_limit K a c1 H1). clear - H1 CL.
  revert a c1 H1. refine (hist_inv K (fun h c => k_maxcl c = 0) eq_refl _). intros h c o c' rv evs H W O IH S. rewrite (step_mx _ _ _ _ _ _ W O S). destruct o; auto.
  cbn [kstep] in S. unfold set_max_client in S. rewrite CL in S. discriminate.
Qed.
Lemma api_env h c n bs : history K h c -> limit_is K h n -> control_bytes K h c bs ->
  exists ps, concat ps = bs /\ bytes bs /\ read_pieces (env K n) cst_init ps = ROk (k_ctl c) (control_events h).
Proof.
  intros H L CB. destruct (api_pieces K (fun m => m = n) h c bs H L CB) as (ps & P1 & P2 & P3 & P4). exists (map snd ps). split; [exact P1|]. split; [exact P2|].
  rewrite <- read_all_const by exact P3. exact P4.
Qed.
Lemma api_ideal h c n bs : history K h c -> limit_is K h n -> control_bytes K h c bs -> (ke_server K = true -> no_long_value (control_events h)) ->
  bytes bs /\ feed (c_step true (env K n)) 3 c_rank cst_init [bs] = ROk (k_ctl c) (control_events h).
Proof.
  intros H L CB NL. destruct (api_env h c n bs H L CB) as (ps & P1 & P2 & P3). split; [exact P2|]. unfold read_pieces in P3.
  rewrite (ideal_cut (env K n) cst_init [bs] ps (c_inv_init _)) by (cbn; rewrite app_nil_r; auto).
  destruct (ke_server K) eqn:SV.
  - rewrite <- P3. apply feed_ideal; [apply c_inv_init|rewrite P1; exact P2|intros X; discriminate X|rewrite P3; auto|rewrite P3; discriminate].
  - rewrite <- P3. symmetry. apply client_feed; [exact SV|apply c_inv_init|rewrite P1; exact P2].
Qed.
Lemma api_cut h c n bs ps : history K h c -> limit_is K h n -> control_bytes K h c bs -> concat ps = bs ->
  (ke_server K = true -> no_long_value (control_events h) /\ no_long_value (evs_ (read_pieces (env K n) cst_init ps)) /\ read_pieces (env K n) cst_init ps <> RAbort) ->
  read_pieces (env K n) cst_init ps = ROk (k_ctl c) (control_events h).
Proof.
  intros H L CB E SV. destruct (api_env h c n bs H L CB) as (qs & P1 & P2 & P3). destruct (ke_server K) eqn:S.
  - destruct (SV eq_refl) as (A & B & C). rewrite <- P3. apply server_cut; [apply c_inv_init|intros X; discriminate X|rewrite E; exact P2|rewrite E, P1; reflexivity|exact C|rewrite P3; discriminate|exact B|rewrite P3; exact A].
  - rewrite <- P3. apply client_cut; [exact S|apply c_inv_init|rewrite E; exact P2|rewrite E, P1; reflexivity].
Qed.
(* only SETTINGS is reported by CvSettings *)
Lemma settled sv st evs st' : cleads sv st evs st' -> fst st <> Fresh -> fst st <> InSettings -> recv_settings_of evs = [] /\ enc_caps evs = [] /\ enc_blocked evs = [].
Proof.
  induction 1 as [st|st e st1 evs st' N C IH]; intros F1 F2; [auto|]. inversion N; subst; cbn [fst] in *; try congruence;
    (destruct IH as (A & B & D); [discriminate|discriminate|]; unfold recv_settings_of, enc_caps, enc_blocked in *; cbn [flat_map app]; auto).
Qed.
Lemma cleads_split sv a : forall st b st', cleads sv st (a ++ b) st' -> exists st1, cleads sv st a st1 /\ cleads sv st1 b st'.
Proof.
  induction a as [|e a IH]; intros st b st' C; [exists st; split; [constructor|exact C]|]. inversion C as [|? ? st1 ? ? N C1]; subst. destruct (IH _ _ _ C1) as (st2 & A & B). exists st2. split; [econstructor; eauto|exact B].
Qed.
(* after SETTINGS was reported *)
Lemma after_settings sv evs st' r : cleads sv (Fresh, 2 ^ 62) evs st' -> recv_settings_of evs = [r] -> fst st' <> Fresh /\ fst st' <> InSettings.
Proof.
  intros C. inversion C as [|? e st1 evs1 ? N C1]; subst; [discriminate|]. inversion N; subst; try (match goal with H : between Fresh |- _ => destruct H end).
  clear C N. assert (X : forall st l st2, cleads sv st l st2 -> fst st = InSettings -> recv_settings_of l <> [] -> fst st2 <> Fresh /\ fst st2 <> InSettings).
  { clear. induction 1 as [st|st e st1 evs st' N C IH]; intros F R; [cbn in R; congruence|]. inversion N; subst; cbn [fst] in *; try congruence; try (apply IH; auto; fail).
    - exfalso. subst. match goal with H : between InSettings |- _ => destruct H end.
    - exfalso. subst. match goal with H : between InSettings |- _ => destruct H end.
    - exfalso. subst. match goal with H : between InSettings |- _ => destruct H end.
    - clear - C. assert (G : forall st l st2, cleads sv st l st2 -> fst st <> Fresh /\ fst st <> InSettings -> fst st2 <> Fresh /\ fst st2 <> InSettings).
      { clear. induction 1 as [st|st e st1 evs st' N C IH]; auto. intros [F1 F2]. apply IH. inversion N; subst; cbn [fst] in *; try congruence; split; discriminate. }
      eapply G; [exact C|split; discriminate]. }
  cbn [recv_settings_of flat_map app]. intros E. eapply X; [exact C1|reflexivity|]. change (recv_settings_of evs1 = [r]) in E. rewrite E. discriminate.
Qed.
Theorem api_told h c n bs p ty payload tl : history K h c -> limit_is K h n -> (ke_server K = true -> no_long_value (control_events h)) ->
  control_bytes K h c bs -> bs = p ++ tl -> rfc_frame p = Some (ty, payload, []) ->
  ty = SETTINGS /\
  exists l r first more, rfc_settings_payload payload l /\ Forall (entry_valid (ke_server K)) l /\ applied (ke_server K) l r /\
    control_events h = first ++ more /\
    recv_settings_of (control_events h) = [r] /\ enc_caps (control_events h) = (if rs_cap r =? 0 then [] else [rs_cap r]) /\
    enc_blocked (control_events h) = (if rs_blocked r =? 0 then [] else [Z.min 100 (rs_blocked r)]) /\
    shutdowns_of first = [] /\ (forall id p, ~ In (CvPriority id p) first) /\
    forall cbs g' n' rest, ctl_told (ke_server K) (parse_priority (ke_sf K) (mk_pri 3 0)) n (2 ^ 62) 0 tl cbs g' n' rest ->
      (exists behind, ctl_callbacks more = cbs ++ behind) /\
      forall q ty' payload' tl' e, rest = q ++ tl' -> rfc_frame q = Some (ty', payload', []) ->
        ctl_frame (ke_server K) (parse_priority (ke_sf K) (mk_pri 3 0)) n g' n' ty' payload' <> Some (CtlErr e).
Proof.
  intros H L NL CB E FR. destruct (api_ideal h c n bs H L CB NL) as [B R]. subst bs.
  destruct (told_first (env K n) (k_ctl c) (control_events h) p ty payload tl B R NL FR) as (TY & l & r & e1 & s1 & e2 & F1 & F2 & F3 & F4 & F5 & F6 & F7 & F8 & F9 & F10 & A1 & A2 & A3 & A4 & A5 & A6).
  split; [exact TY|]. destruct (api_trace h c H) as (st & TR). rewrite F4 in TR. destruct (cleads_split _ _ _ _ _ TR) as (st1 & T1 & T2). destruct (after_settings _ _ _ _ T1 F6) as [N1 N2].
  destruct (settled _ _ _ _ T2 N1 N2) as (S1 & S2 & S3). unfold recv_settings_of, enc_caps, enc_blocked in *.
  exists l, r, e1, e2. split; [exact F1|]. split; [exact F2|]. split; [exact F3|]. split; [exact F4|].
  rewrite F4, !flat_map_app, S1, S2, S3, !app_nil_r. split; [exact F6|]. split; [exact F7|]. split; [exact F8|]. split; [exact F9|]. split; [exact F10|].
  intros cbs g' n' rest T. apply Forall_app in B as [_ B2]. assert (SH : short (env K n) e2) by (intros SV; specialize (NL SV); rewrite F4 in NL; apply Forall_app in NL; tauto).
  destruct (told_run (env K n) _ _ _ _ _ _ _ T s1 (k_ctl c) e2 A1 A2 A3 A4 A5 A6 B2 F5 SH) as (f1 & t & f2 & -> & K1 & K2 & K3 & K4 & K5 & K6 & K7 & K8 & K9).
  split; [exists (ctl_callbacks f2); rewrite callbacks_app, K1; reflexivity|]. intros q ty' payload' tl' e -> FQ CE.
  apply (told_refused (env K n) t (k_ctl c) f2 q ty' payload' tl' e K4 K5 K6 K9 K3 K2 (proj2 (short_app (env K n) f1 f2 SH)) FQ). rewrite K7, K8. exact CE.
Qed.
End Hist.
