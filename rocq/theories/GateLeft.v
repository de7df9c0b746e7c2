(* nghttp3_conn_get_frame_payload_left along histories of calls *)
From Verif Require Import Base BaseLemmas Chunk ConvModel ConvSpec RdVarint QpackTabModel QpackDecModel QpackHistModel QpackSecProofs HttpModel BidiModel BidiHist BidiProofs BidiSpec BidiRun BidiAcct BidiCut RfcQpackSpec RfcStreamSpec SecMean ConvProofs MeanStream MeanGrow MeanRx ControlModel GapModel TxModel SchedModel ConnModel ConnStep ConnWf ConnDecomp ConnHist ConnRecv RecvSpec RecvLog ConnRecvHist MeanSeen MeanApi MeanListen GateSpec.
Open Scope Z_scope.

(* ---- the specification: one value ---- *)
Lemma in_frame_fun l n : in_frame l n -> forall m, in_frame l m -> n = m.
Proof.
  assert (NIL : forall k, in_frame [] k -> k = 0) by (intros k IN; inversion IN as [|? ? ? ? (m & E & _)|? ? ? ? ? ? (m & E & _)]; subst; auto; discriminate E).
  induction 1 as [l H|l ty len p H L|l ty len p r n H L I IH]; intros m M; inversion M as [l' H'|l' ty' len' p' H' L'|l' ty' len' p' r' n' H' L' I']; subst; auto; try (exfalso; eapply H; eassumption); try (exfalso; eapply H'; eassumption).
  - destruct (frame_head_fun _ _ _ _ _ _ _ H H') as (_ & -> & ->). reflexivity.
  - destruct (frame_head_fun _ _ _ _ _ _ _ H H') as (_ & E & E2). rewrite E2, zlen_app in L. pose proof (zlen_nonneg _ r').
    assert (R : zlen r' = 0) by lia. destruct r' as [|z r']; [|rewrite zlen_cons in R; pose proof (zlen_nonneg _ r'); lia]. rewrite (NIL _ I'). rewrite E2, app_nil_r. lia.
  - destruct (frame_head_fun _ _ _ _ _ _ _ H' H) as (_ & E & E2). rewrite E2, zlen_app in L'. pose proof (zlen_nonneg _ r).
    assert (R : zlen r = 0) by lia. destruct r as [|z r]; [|rewrite zlen_cons in R; pose proof (zlen_nonneg _ r); lia]. rewrite (NIL _ I). rewrite E2, app_nil_r. lia.
  - destruct (frame_head_fun _ _ _ _ _ _ _ H H') as (_ & E & E2). assert (LL : zlen p = zlen p') by congruence. assert (r = r') as ->; [|apply IH; exact I'].
    clear -E2 LL. revert p' E2 LL. induction p as [|z p IHp]; intros [|z' p'] E2 LL; auto; rewrite ?zlen_cons, ?zlen_nil in LL; try (pose proof (zlen_nonneg _ p); lia); try (pose proof (zlen_nonneg _ p'); lia).
    injection E2 as _ E2. eapply IHp; eauto. lia.
Qed.
Lemma frames_in max H n0 l its r x n : bytes l -> frames max H n0 l its r -> in_frame (r ++ x) n -> in_frame (l ++ x) n.
Proof.
  intros B F. revert B. induction F as [l|l ty len p r it its r' FH L FM F IH]; [auto|]. intros B I. eapply if_next; [|exact L|apply IH; [|exact I]].
  - rewrite app_assoc. eapply frame_head_app; [exact B|exact FH].
  - pose proof (frame_head_bytes _ _ _ _ B FH) as X. apply bytes_app in X. exact (proj2 X).
Qed.
(* ---- between frames nothing is left ---- *)
Definition L0 (s : bst) : Prop := b_rd s = FType \/ b_rd s = FLen -> b_left s = 0.
Lemma L0_eq s s' : b_rd s' = b_rd s -> b_left s' = b_left s -> L0 s -> L0 s'. Proof. unfold L0. intros -> ->. auto. Qed.
Lemma bstep_L0 pre fin E s p : L0 s -> match bstep pre fin E s p with SGo s' _ _ _ | SMore s' _ | SStop s' _ _ => L0 s' | _ => True end.
Proof.
  intros I. unfold bstep. destruct (b_rd s) eqn:RD.
  - destruct (rd_varint _ _ _); cbn; auto; intros _; apply I; auto.
  - destruct (rd_varint _ _ _) as [rv|v rest| |]; cbn; auto; [intros _; apply I; auto|]. unfold frame_start, b_fail.
    destruct (b_ty s =? FRAME_DATA).
    { destruct (transit _ _ _ _) as [ph|e|]; cbn; auto. destruct (v =? 0); cbn; [destruct (transit _ _ _ _); cbn; auto; intros _; reflexivity|intros [X|X]; discriminate X]. }
    destruct (b_ty s =? FRAME_HEADERS).
    { destruct (transit _ _ _ _) as [ph|e|]; cbn; auto. destruct (v =? 0).
      - destruct (empty_headers_allowed _); cbn; auto. destruct (transit _ _ _ _); cbn; auto; intros _; reflexivity.
      - destruct ph; cbn; auto; intros [X|X]; discriminate X. }
    destruct (refused _); cbn; auto; intros [X|X]; discriminate X.
  - unfold data_step, b_fail. destruct (on_data_chunk _ _) as [h ok]. destruct ok; cbn; auto.
    destruct (_ =? 0); cbn; [|intros [X|X]; discriminate X]. destruct (transit _ _ _ _); cbn; auto; intros _; reflexivity.
  - unfold headers_step. cbv zeta. destruct (decode_section _ _ _ _) as [vs r].
    destruct (on_headers _ _ _ _ _ _) as [[h out] ok]. destruct ok; cbn [negb]; [|cbn; intros [X|X]; discriminate X].
    assert (HE : forall sc d p0 rest c evs, match headers_end E s h sc d p0 rest c evs with SGo s' _ _ _ | SMore s' _ | SStop s' _ _ => L0 s' | _ => True end).
    { intros. unfold headers_end. destruct (match b_ph s with HpHeadersBegin => _ | HpTrailersBegin => _ | _ => _ end) as [[h' ok']|e|]; auto.
      destruct ok'; [|cbn; intros [X|X]; discriminate X]. destruct (transit _ _ _ _); cbn; auto; intros _; reflexivity. }
    destruct r as [sc v rest0|sc rest0|sc|d' sc|e d' sc|]; try exact Logic.I; try (apply HE).
    + destruct (e_full E); cbn; auto; intros [X|X]; discriminate X.
    + destruct (_ =? 0); [apply HE|cbn; intros [X|X]; discriminate X].
  - cbv zeta. destruct (_ =? 0); cbn; [intros _; reflexivity|intros [X|X]; discriminate X].
  - cbn. intros [X|X]; discriminate X.
Qed.
Lemma run_fuel_L0 pre fin E f : forall s p busy, L0 s -> match run_fuel (bstep pre fin E) f s p busy with ROk s' _ | RStop s' _ _ => L0 s' | _ => True end.
Proof.
  induction f as [|f IH]; intros s p busy I; [destruct p, busy; cbn; auto|].
  assert (D : (p = [] /\ busy = false) \/ forall g : bst -> list Z -> sres bst bev, run_fuel g (S f) s p busy = turn g s p (run_fuel g f)).
  { destruct p; [destruct busy|]; auto. }
  destruct D as [[-> ->]|D]; [cbn; auto|]. rewrite D. unfold turn.
  pose proof (bstep_L0 pre fin E s p I) as B. destruct (bstep pre fin E s p) as [s' r b ev| | | |]; auto.
  specialize (IH s' r b B). destruct (run_fuel (bstep pre fin E) f s' r b); cbn; auto.
Qed.
Lemma b_read_L0 pre E s p fin : L0 s -> match b_read pre E s p fin with ROk s' _ | RStop s' _ _ => L0 s' | _ => True end.
Proof.
  intros I. unfold b_read, b_run, run. pose proof (run_fuel_L0 pre fin E (S (measure 2 b_rank s p)) s p false I) as R.
  destruct (run_fuel _ _ _ _ _); auto. destruct fin; auto. unfold b_finish. destruct (b_rd s0) eqn:RD; auto.
  destruct (negb _); auto. destruct (transit _ _ _ _); cbn; auto. intros _. cbn. apply R. auto.
Qed.
Lemma bidi_L0 pre E x p fin : L0 (x_st x) -> match read_bidi pre E x p fin with COk x' _ _ _ => L0 (x_st x') | _ => True end.
Proof.
  intros I. unfold read_bidi. cbv zeta. destruct (x_shut x); [exact I|]. destruct (b_blk (x_st x)); [exact I|].
  pose proof (b_read_L0 pre E (x_st x) p fin I) as R. destruct (b_read _ _ _ _ _); auto.
Qed.
Definition xL0 (r : xres) : Prop := match r with XOk x _ | XGone x _ => L0 (x_st x) | _ => True end.
Lemma xL0_evs ev r : xL0 r -> xL0 (x_evs ev r). Proof. destruct r; auto. Qed.
Lemma recv_L0 pre E x p fin : L0 (x_st x) -> xL0 (recv pre E x p fin).
Proof.
  intros I. unfold recv. destruct (_ && _); [exact I|]. cbv zeta.
  match goal with |- context [read_bidi pre E ?y p fin] => pose proof (bidi_L0 pre E y p fin I) as R; destruct (read_bidi pre E y p fin); auto end.
Qed.
Lemma proc_L0 pre f : forall E x, L0 (x_st x) -> xL0 (process_blocked pre f E x).
Proof.
  induction f as [|f IH]; intros E x I; [exact Logic.I|]. cbn [process_blocked]. destruct (x_inq x) as [|[buf room] q]; [exact I|].
  pose proof (bidi_L0 pre E x buf ((match q with [] => true | _ => false end) && x_eof x) I) as R. destruct (read_bidi _ _ _ _ _) as [x' np nc evs|e evs|]; try exact Logic.I.
  destruct (x_inq x') as [|[b' r'] q']; [exact Logic.I|]. cbv zeta. destruct (b_blk _); [exact R|]. apply xL0_evs, IH. exact R.
Qed.
Lemma resume_L0 pre E x : L0 (x_st x) -> xL0 (resume pre E x).
Proof.
  intros I. unfold resume. pose proof (proc_L0 pre (S (length (x_inq x))) E x I) as R. destruct (process_blocked _ _ _ _) as [x' ev|x' ev|e ev|]; try exact R. destruct (_ && _); exact R.
Qed.
Lemma xstep_L0 pre E x o : L0 (x_st x) -> xL0 (snd (x_step pre E x o)).
Proof.
  intros I. destruct o; cbn [x_step].
  - apply recv_L0. exact I.
  - cbv zeta. destruct (_ && _); cbn [snd]; [apply resume_L0|]; exact I.
  - cbn [snd]. destruct (x_shut x); [exact I|]. destruct (dec_cancel_stream _ _); try exact Logic.I. exact I.
  - cbn [snd]. destruct (b_blk (x_st x)); exact I.
Qed.
Lemma xrun_L0 pre ops : forall E x, L0 (x_st x) -> xL0 (x_run pre E x ops).
Proof.
  induction ops as [|o ops IH]; intros E x I; [exact I|]. cbn [x_run]. pose proof (xstep_L0 pre E x o I) as R. destruct (x_step pre E x o) as [E' r]. cbn [snd] in R.
  destruct r as [x' ev|x' ev|e ev|]; auto. apply xL0_evs, IH. exact R.
Qed.
(* ---- the frame in progress ---- *)
Lemma cur_in max n0 id H s cur its : L0 s -> bytes cur -> curf max n0 id H s cur its -> in_frame cur (b_left s).
Proof.
  intros I B C. destruct C as [cur R P G|cur lb R G P G2|cur len p R FH L P|cur ty len p R FH N0 N1 L P|cur len p qs ks R FH P L P2].
  - rewrite I by auto. apply if_head. intros ty len p (m & E & _). rewrite <- get_varint_rfc in E by auto. congruence.
  - rewrite I by auto. apply if_head. intros ty len p (m & E & E2). rewrite <- get_varint_rfc in E by auto. rewrite G in E. injection E as <- <-.
    rewrite <- get_varint_rfc in E2; [congruence|]. apply (proj1 P).
  - rewrite L. eapply if_payload; [exact FH|lia].
  - rewrite L. eapply if_payload; [exact FH|lia].
  - rewrite L. eapply if_payload; [exact FH|lia].
Qed.
Section Left.
Context (K : kenv) (CAP : 0 <= s_cap (ke_set K)).
Lemma api_left h c id : history K h c -> client_bidi id = true -> is_open c id = true -> listens c id ->
  exists a b, given id (life id h) = a ++ b /\ in_frame a (frame_payload_left K c id) /\ zlen b = held_back id (life id h).
Proof.
  intros HI C O LI. unfold is_open in O. destruct (find_stream c id) as [s|] eqn:F; [clear O|discriminate].
  assert (PL : frame_payload_left K c id = b_left (x_st (st_x s))) by (unfold frame_payload_left; rewrite C, F; reflexivity). rewrite PL.
  destruct (open_fine K CAP h c id s HI C F) as (_ & _ & _ & A3). cbn [log_of l_ret l_def l_rcv l_evs] in A3.
  destruct (open_T K CAP h c id s HI C F) as [(E0 & d0 & rej & ops & d1 & _ & _ & R & OK & B & X & RC & E1 & E2) _ _ IR _].
  pose proof (start_GX K (rq_of h id) id d0 rej CAP R) as G0. pose proof (start_inv K (rq_of h id) id d0 rej (reach_ok K _ CAP (proj1 R)) IR) as X0.
  assert (D0 : b_dec (x_st (x_start K (rq_of h id) id d0 rej)) = d0) by (destruct rej; reflexivity). rewrite <- D0 in G0 at 1. apply received_bytes in B.
  pose proof (run_GX _ _ id CAP ops E0 _ [] [] X0 B OK G0) as G. rewrite X in G. cbn [GX_res app] in G. rewrite RC in G. cbn [snd rq_of log_of l_rcv l_evs] in G.
  destruct G as (H & MD & L & HR). destruct HR as (pre & suf & EQ & Bp & SH & HM).
  assert (LZ : L0 (x_st (st_x s))).
  { pose proof (xrun_L0 false ops E0 (x_start K (rq_of h id) id d0 rej)) as Q. rewrite X in Q. cbn [xL0] in Q. eapply L0_eq; [| |apply Q]; [reflexivity|reflexivity|]. destruct rej; intros _; reflexivity. }
  destruct LI as (s' & F' & S' & R'). rewrite F in F'. injection F' as <-.
  exists pre, suf. split; [exact EQ|]. split.
  - destruct HM as [don cur its1 its2 P1 P2 P3 P4|P1 P2]; [|exfalso; apply R'; exact P1].
    pose proof Bp as Bp'. rewrite P1 in Bp'. apply bytes_app in Bp' as [Bd Bc]. rewrite P1. eapply frames_in; [exact Bd|exact P2|]. cbn [app].
    change (b_left (x_st (st_x s))) with (b_left (x_st (with_dec (st_x s) d1))). eapply cur_in; [eapply L0_eq; [| |exact LZ]; reflexivity|exact Bc|exact P3].
  - unfold held_back. rewrite (SH S'). change (x_inq (with_dec (st_x s) d1)) with (x_inq (st_x s)). fold (held (st_x s)). lia.
Qed.
End Left.
