(* Facts about reading one request stream that hold in every state *)
From Verif Require Import Base BaseLemmas Chunk ConvModel RdVarint QpackTabModel QpackDecModel QpackHistModel HttpModel BidiModel BidiHist PqModel BidiRun ControlTrace SchedModel SchedFair.
Open Scope Z_scope.

Section Rel.
Context {St Ev : Type} (step : St -> list Z -> @sres St Ev) (R : St -> list Ev -> St -> Prop).
Hypothesis Rrefl : forall s, R s [] s.
Hypothesis Rtrans : forall a x b y c, R a x b -> R b y c -> R a (x ++ y) c.
Hypothesis Rstep : forall s p, match step s p with SGo s' _ _ ev | SMore s' ev | SStop s' _ ev => R s ev s' | _ => True end.
Lemma run_fuel_R f : forall s p busy, match run_fuel step f s p busy with ROk s' ev | RStop s' _ ev => R s ev s' | _ => True end.
Proof.
  induction f as [|f IH]; intros s p busy.
  - destruct p, busy; cbn; auto.
  - cbn [run_fuel]. assert (match match step s p with
      | SGo s' rest b ev => rev_ ev (run_fuel step f s' rest b) | SMore s' ev => ROk s' ev | SStop s' rest ev => RStop s' rest ev
      | SErr e s' ev => RErr e s' ev | SAbort => RAbort end with ROk s' ev | RStop s' _ ev => R s ev s' | _ => True end) as X.
    { pose proof (Rstep s p) as B. destruct (step s p) as [s' r b ev| | | |]; auto.
      specialize (IH s' r b). destruct (run_fuel step f s' r b); cbn; eauto. }
    destruct p; [destruct busy; auto|auto].
Qed.
End Rel.

(* the priority of a header section *)
Lemma on_header_pri sf s f rq tr cp s' v : on_header sf s f rq tr cp = (s', v) -> pri_valid (h_pri s) -> pri_valid (h_pri s').
Proof.
  unfold on_header, request_on_header, response_on_header, on_other. intros H V.
  repeat match type of H with
  | (match parse_priority ?a ?b ?c with _ => _ end) = _ => let Q := fresh in destruct (parse_priority a b c) eqn:Q; [apply parse_pri_range in Q; [|unfold pri_valid in V; cbn in V |- *; lia|unfold pri_valid in V; cbn in V |- *; tauto]|]
  | (let _ := _ in _) = _ => cbv zeta in H
  | (if ?b then _ else _) = _ => destruct b
  | (match ?x with _ => _ end) = _ => destruct x
  end; injection H as <- <-; unfold pri_valid in *; cbn in *; auto; try lia.
Qed.
Lemma on_headers_pri sf l : forall s rq tr cp s' out ok, on_headers sf s l rq tr cp = (s', out, ok) -> pri_valid (h_pri s) -> pri_valid (h_pri s').
Proof.
  induction l as [|f l IH]; cbn [on_headers]; intros s rq tr cp s' out ok H V; [injection H as <- <- <-; auto|].
  destruct (on_header sf s f rq tr cp) as [s1 v] eqn:E. pose proof (on_header_pri _ _ _ _ _ _ _ _ E V) as V1. destruct v.
  - destruct (on_headers sf s1 l rq tr cp) as [[s2 o2] k2] eqn:E2. injection H as <- <- <-. eapply IH; eauto.
  - eapply IH; eauto.
  - injection H as <- <- <-. auto.
Qed.
Lemma req_pri h h' ok : on_request_headers h = (h', ok) -> h_pri h' = h_pri h.
Proof. unfold on_request_headers. intros H. repeat match type of H with (if ?b then _ else _) = _ => destruct b end; injection H as <- _; reflexivity. Qed.
Lemma resp_pri h h' ok : on_response_headers h = (h', ok) -> h_pri h' = h_pri h.
Proof. unfold on_response_headers. intros H. cbv zeta in H. repeat match type of H with (if ?b then _ else _) = _ => destruct b end; injection H as <- _; reflexivity. Qed.

(* what one call does: a priority is announced only by a server that has no other signal, and is valid; a stream
   whose rest is ignored stays so and says nothing *)
Record rfact (E : benv) (s : bst) (ev : list bev) (s' : bst) : Prop := {
  rf_pri : pri_valid (h_pri (b_http s)) -> pri_valid (h_pri (b_http s'));
  rf_ann : pri_valid (h_pri (b_http s)) -> forall p, In (BvPriority p) ev -> e_req E = true /\ e_nopri E = false /\ pri_valid p;
  rf_ign : b_rd s = FIgnRest -> ev = [] /\ b_rd s' = FIgnRest /\ b_blk s' = b_blk s }.
Lemma rfact_refl E s : rfact E s [] s.
Proof. constructor; auto. intros _ p []. Qed.
Lemma rfact_trans E a x b y c : rfact E a x b -> rfact E b y c -> rfact E a (x ++ y) c.
Proof.
  intros [A1 A2 A3] [B1 B2 B3]. constructor; auto.
  - intros V p H. apply in_app_iff in H as [H|H]; auto.
  - intros H. destruct (A3 H) as (-> & H2 & H3). destruct (B3 H2) as (-> & H4 & H5). split; [auto|split; [auto|congruence]].
Qed.
Lemma rfact_calm E s s' ev : h_pri (b_http s') = h_pri (b_http s) -> (forall p, ~ In (BvPriority p) ev) -> (b_rd s = FIgnRest -> ev = [] /\ b_rd s' = FIgnRest /\ b_blk s' = b_blk s) -> rfact E s ev s'.
Proof. intros H1 H2 H3. constructor; auto. - rewrite H1; auto. - intros _ p H. destruct (H2 p H). Qed.
Lemma no_pri_hdr (tr : bool) out p : ~ In (BvPriority p) (map (if tr then BvTrailer else BvHeader) out).
Proof. induction out; cbn; auto. intros [H|H]; auto. destruct tr; discriminate. Qed.
Lemma headers_end_fact E s h sc d p rest c evs s0 : b_rd s <> FIgnRest -> b_rd s0 <> FIgnRest -> (pri_valid (h_pri (b_http s0)) -> pri_valid (h_pri h)) -> (forall p, ~ In (BvPriority p) evs) ->
  match headers_end E s h sc d p rest c evs with SGo s' _ _ ev | SMore s' ev | SStop s' _ ev => rfact E s0 ev s' | _ => True end.
Proof.
  intros HR HR0 HV HE. unfold headers_end.
  assert (forall h' ok, (match b_ph s with HpHeadersBegin => Ok (if e_req E then on_request_headers h else on_response_headers h) | HpTrailersBegin => Ok (h, true) | _ => Abort end) = Ok (h', ok) -> h_pri h' = h_pri h) as X.
  { intros h' ok H. destruct (b_ph s); try discriminate.
    - destruct (e_req E); injection H as H; [eapply req_pri; eauto|eapply resp_pri; eauto].
    - injection H as <- <-. reflexivity. }
  destruct (match b_ph s with HpHeadersBegin => _ | HpTrailersBegin => _ | _ => _ end) as [[h' ok]|e|]; auto.
  specialize (X h' ok eq_refl). destruct ok.
  - destruct (transit _ _ _ _) as [ph|e|]; auto. constructor.
    + cbn. rewrite X. auto.
    + intros V q H. apply in_app_iff in H as [H|H]; [destruct (HE _ H)|]. apply in_app_iff in H as [H|H].
      * destruct (negb _ && e_req E && h_prio h' && negb (e_nopri E)) eqn:B; [|destruct H]. destruct H as [H|[]]. injection H as <-. rewrite X.
        apply andb_true_iff in B as [B B1]. apply andb_true_iff in B as [B B2]. apply andb_true_iff in B as [_ B]. apply negb_true_iff in B1. auto.
      * destruct (match b_ph s with HpTrailersBegin => true | _ => false end), H as [H|[]]; discriminate.
    + intros; congruence.
  - unfold malformed. constructor; cbn.
    + rewrite X. auto.
    + intros V q H. apply in_app_iff in H as [H|H]; [destruct (HE _ H)|]. destruct H as [H|[H|[]]]; discriminate.
    + intros; congruence.
Qed.
Lemma bstep_fact pre fin E s p : match bstep pre fin E s p with SGo s' _ _ ev | SMore s' ev | SStop s' _ ev => rfact E s ev s' | _ => True end.
Proof.
  unfold bstep. destruct (b_rd s) eqn:RD.
  - destruct (rd_varint _ _ _); cbn; auto; apply rfact_calm; cbn; auto; congruence.
  - destruct (rd_varint _ _ _) as [rv|v rest| |]; cbn; auto; [apply rfact_calm; cbn; auto; congruence|]. unfold frame_start, b_fail.
    assert (forall q ty n, ~ In (BvPriority q) [BvFrame ty n]) as N1 by (cbn; intros q ty n [H|[]]; discriminate).
    destruct (b_ty s =? FRAME_DATA).
    { destruct (transit _ _ _ _) as [ph|e|]; auto. destruct (v =? 0); [destruct (transit _ _ _ _); auto|]; (apply rfact_calm; [reflexivity|intros q; apply N1|intros; congruence]). }
    destruct (b_ty s =? FRAME_HEADERS).
    { destruct (transit _ _ _ _) as [ph|e|]; auto. destruct (v =? 0).
      - destruct (empty_headers_allowed _); auto. destruct (transit _ _ _ _); auto. (apply rfact_calm; [reflexivity|intros q; apply N1|intros; congruence]).
      - destruct ph; auto; (apply rfact_calm; [reflexivity|intros q [H|[H|[]]]; discriminate|intros; congruence]). }
    destruct (refused _); auto. (apply rfact_calm; [reflexivity|intros q; apply N1|intros; congruence]).
  - unfold data_step, b_fail. destruct (on_data_chunk (b_http s) (Z.min (b_left s) (zlen p))) as [h ok] eqn:D. destruct ok; [|exact I].
    assert (h_pri h = h_pri (b_http s)) as Q by (unfold on_data_chunk in D; cbv zeta in D; injection D as <- _; reflexivity).
    assert (forall q l, ~ In (BvPriority q) (map BvData l)) as N by (intros q l H; apply in_map_iff in H as (x & H & _); discriminate).
    destruct (_ =? 0); [destruct (transit _ _ _ _); [|exact I|exact I]|]; (apply rfact_calm; [cbn; auto|intros q; apply N|intros; congruence]).
  - unfold headers_step. cbv zeta. destruct (decode_section _ _ _ _) as [vs r].
    destruct (on_headers _ _ _ _ _ _) as [[h out] ok] eqn:OH. pose proof (on_headers_pri _ _ _ _ _ _ _ _ _ OH) as V.
    assert (b_rd s <> FIgnRest) as RN by congruence.
    destruct ok; cbn [negb].
    2:{ unfold malformed. constructor; cbn; auto; [|congruence]. intros _ q H. apply in_app_iff in H as [H|H]; [destruct (no_pri_hdr _ _ _ H)|].
        destruct H as [H|[H|[]]]; discriminate. }
    destruct r as [sc v rest0|sc rest0|sc|d' sc|e d' sc|]; auto; try exact Logic.I.
    + destruct (e_full E); cbn; auto. constructor; cbn; auto; [|congruence]. intros _ q H. destruct (no_pri_hdr _ _ _ H).
    + destruct (_ =? 0); [apply headers_end_fact; auto using no_pri_hdr|]. constructor; cbn; auto; [|congruence]. intros _ q H. destruct (no_pri_hdr _ _ _ H).
    + apply headers_end_fact; auto using no_pri_hdr.
  - cbv zeta. destruct (_ =? 0); cbn; auto; apply rfact_calm; cbn; auto; congruence.
  - cbn. apply rfact_calm; cbn; auto.
Qed.
Lemma b_read_fact pre E s p fin : match b_read pre E s p fin with ROk s' ev | RStop s' _ ev => rfact E s ev s' | _ => True end.
Proof.
  unfold b_read, b_run, run. pose proof (run_fuel_R (bstep pre fin E) (rfact E) (rfact_refl E) (rfact_trans E) (bstep_fact pre fin E) (S (measure 2 b_rank s p)) s p false) as R.
  destruct (run_fuel _ _ _ _ _); auto. destruct fin; auto. unfold b_finish. destruct (b_rd s0) eqn:RD; auto.
  destruct (negb _); auto. destruct (transit _ _ _ _) as [ph|e|]; cbn; auto. eapply rfact_trans; [exact R|]. apply rfact_calm; cbn; auto; [intros q [H|[]]; discriminate|congruence].
Qed.
(* the whole stream *)
Definition quiet (x : rx) : Prop := b_rd (x_st x) = FIgnRest /\ b_blk (x_st x) = false /\ x_inq x = [].
Record xfact (E : benv) (x : rx) (ev : list bev) (x' : rx) : Prop := {
  xf_f : rfact E (x_st x) ev (x_st x');
  xf_id : x_id x' = x_id x;
  xf_closed : x_closed x' = x_closed x;
  xf_shut : x_shut x' = x_shut x }.
Lemma xfact_refl E x : xfact E x [] x. Proof. constructor; auto using rfact_refl. Qed.
Lemma xfact_trans E a x b y c : xfact E a x b -> xfact E b y c -> xfact E a (x ++ y) c.
Proof. intros [] []. constructor; [eapply rfact_trans; eauto|congruence..]. Qed.
Lemma read_bidi_fact pre E x src fin : match read_bidi pre E x src fin with COk x' _ _ ev => xfact E x ev x' /\ (quiet x -> x_inq x' = x_inq x) | _ => True end.
Proof.
  unfold read_bidi. destruct (x_shut x) eqn:SH.
  { split; auto using xfact_refl. }
  destruct (b_blk (x_st x)) eqn:BK.
  { split; [constructor; cbn; auto using rfact_refl|]. intros (_ & Q & _). congruence. }
  pose proof (b_read_fact pre E (x_st x) src fin) as F. destruct (b_read pre E (x_st x) src fin) as [s' ev|s' rest ev| |] eqn:RB; auto.
  - split; [constructor; cbn; auto|auto].
  - split; [constructor; cbn; auto|]. intros (Q & _ & _). exfalso. pose proof (BidiRun.b_read_blk pre E (x_st x) src fin) as B. rewrite RB in B. destruct F as [_ _ F]. destruct (F Q) as (_ & _ & F3). congruence.
Qed.
Lemma recv_fact pre E x src fin : match recv pre E x src fin with XOk x' ev => xfact E x ev x' /\ (quiet x -> quiet x' /\ ev = []) | XGone _ _ => False | _ => True end.
Proof.
  unfold recv. destruct ((zlen src =? 0) && negb fin); [split; auto using xfact_refl|].
  set (y := mk_rx _ _ _ _ _ _ _ _). pose proof (read_bidi_fact pre E y src fin) as F. destruct (read_bidi pre E y src fin) as [x' np nc ev| |]; auto.
  destruct F as [[F1 F2 F3 F4] F5]. split; [constructor; cbn in *; auto|].
  intros (Q1 & Q2 & Q3). destruct F1 as [_ _ F1]. destruct (F1 Q1) as (-> & G1 & G2). unfold quiet. cbn in *. split; auto. split; [auto|split; [congruence|]].
  rewrite F5; auto. split; auto.
Qed.
Lemma process_fact pre E f : forall x, match process_blocked pre f E x with XOk x' ev => xfact E x ev x' | XGone _ _ => False | _ => True end.
Proof.
  induction f as [|f IH]; intros x; cbn [process_blocked]; auto. destruct (x_inq x) as [|[buf room] q]; [apply xfact_refl|].
  match goal with |- context [read_bidi pre E x buf ?fn] => pose proof (read_bidi_fact pre E x buf fn) as F; destruct (read_bidi pre E x buf fn) as [x' np nc ev| |]; auto end.
  destruct F as [F _]. destruct (x_inq x') as [|[buf' room'] q']; auto.
  assert (forall q2, xfact E x ev (x_add x' q2 0 nc)) as G by (intros q2; destruct F; constructor; cbn; auto).
  match goal with |- context [x_add x' ?q2 0 nc] => specialize (G q2); set (x2 := x_add x' q2 0 nc) in * end.
  destruct (b_blk (x_st x2)); auto. specialize (IH x2). destruct (process_blocked pre f E x2) as [y e2|y e2| |]; cbn; auto. eapply xfact_trans; eauto.
Qed.
Lemma resume_fact pre E x : match resume pre E x with XOk x' ev | XGone x' ev => xfact E x ev x' | _ => True end.
Proof.
  unfold resume. pose proof (process_fact pre E (S (length (x_inq x))) x) as F. destruct (process_blocked _ _ _ _) as [y e|y e| |]; auto; try tauto.
  destruct (negb _ && _); cbn; auto. destruct F; constructor; cbn; auto.
Qed.
