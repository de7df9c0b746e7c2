(* Closing request streams along histories of calls *)
From Verif Require Import Base BaseLemmas Chunk ConvModel RdVarint QpackTabModel QpackDecModel QpackHistModel HttpModel BidiModel BidiHist BidiSpec BidiRun ControlModel GapModel PqModel TxModel SchedModel ConnModel ConnStep ConnRx ConnWf ConnDecomp ConnHist ConnRecv RecvSpec RecvLog ConnRecvHist CloseSpec CloseProofs.
Open Scope Z_scope.

Definition asked1 (id : Z) (x : kcall) : option Z := match ConnHist.c_op x with OClose i code => if i =? id then Some code else None | _ => None end.
Lemma asked_snoc id h x : asked id (h ++ [x]) = match asked1 id x with Some code => Some code | None => asked id h end.
Proof.
  induction h as [|y h IH]; cbn [asked app]; [unfold asked1; destruct (ConnHist.c_op x); auto; destruct (_ =? _); auto|]. rewrite IH. destruct (asked1 id x); auto.
Qed.
Section CloseHist.
Context (K : kenv).
Lemma fl_next c o c' rv evs id : wf K c -> op_ok o -> client_bidi id = true -> kstep K c o = KOk c' rv evs -> (forall code, o <> OClose id code) ->
  (close_codes id evs = [] /\ (fl c' id = fl c id \/ (fl c id = None /\ fl c' id = Some None))) \/
  (exists code a b, fl c id = Some (Some code) /\ fl c' id = None /\ evs = a ++ KClosed id code :: b /\ close_codes id a = [] /\ no_callback id b).
Proof.
  intros W O CB S NC.
  assert (E : close_codes id evs = [] -> close_codes id evs = [] /\ (fl c' id = fl c id \/ (fl c id = None /\ fl c' id = Some None))) by (intros E; split; [exact E|]; eapply step_fl; eauto).
  destruct o; try (left; apply E; eapply codes_other; eauto; intros; discriminate).
  - destruct (read_D K _ _ _ _ _ _ _ id CB S) as [[X _]|X]; [|auto]. destruct X as [[X _]|X]; auto.
  - left. apply E. assert (id0 <> id) by (intros ->; eapply NC; reflexivity). pose proof (close_D K _ _ _ _ _ _ S) as X. destruct (find_stream c id0) as [s|]; [|destruct X as (_ & _ & ->); reflexivity].
    destruct (b_blk _); [destruct X as [_ ->]; reflexivity|]. destruct X as [_ (n & ->)]. rewrite codes_app, codes_deferred, codes_closed by auto. reflexivity.
Qed.
Lemma hist_asked h c : history K h c -> forall id s, client_bidi id = true -> find_stream c id = Some s -> st_fl s = asked id (life id h).
Proof.
  revert h c. refine (hist_inv K (fun h c => forall id s, client_bidi id = true -> find_stream c id = Some s -> st_fl s = asked id (life id h)) _ _); [intros id s _ F; discriminate F|].
  intros h c o c' rv evs H W O IH S id s' CB F'. set (x := mk_call o rv evs c'). rewrite life_snoc. assert (is_open (c_post x) id = true) as -> by (unfold is_open; change (c_post x) with c'; rewrite F'; reflexivity).
  rewrite asked_snoc.
  assert (FL : fl c' id = Some (st_fl s')) by (unfold fl; rewrite F'; reflexivity).
  assert (OLD : forall code, fl c id = Some code -> code = asked id (life id h)) by (intros code; unfold fl; destruct (find_stream c id) as [s|] eqn:F; [intros [= <-]; eauto|discriminate]).
  assert (NEW : fl c id = None -> asked id (life id h) = None) by (intros N; rewrite (life_closed K h c id H); [reflexivity|unfold fl in N; destruct (find_stream c id); [discriminate|reflexivity]]).
  assert (STEP : (forall code, o <> OClose id code) -> st_fl s' = asked id (life id h)).
  { intros NC. destruct (fl_next c o c' rv evs id W O CB S NC) as [[_ [X|[X1 X2]]]|(code & a & b & X1 & X2 & _)].
    - apply OLD. congruence.
    - rewrite NEW by exact X1. congruence.
    - congruence. }
  unfold asked1. change (ConnHist.c_op x) with o. destruct o; try (apply STEP; intros; discriminate).
  destruct (Z.eqb_spec id0 id) as [->|N]; [|apply STEP; intros c0 [= E _]; congruence].
  pose proof (close_D K _ _ _ _ _ _ S) as X. destruct (find_stream c id) as [s|] eqn:F; [|destruct X as (-> & _); congruence].
  destruct (b_blk _); [destruct X as [X _]; congruence|destruct X as [X _]; congruence].
Qed.
(* a stream that is to be closed waits for the encoder *)
Lemma run_closed ops : forall E x x' e, x_run false E x ops = XOk x' e -> (x_closed x = true -> b_blk (x_st x) = true) -> x_closed x' = true -> b_blk (x_st x') = true.
Proof.
  induction ops as [|o ops IH]; intros E x x' e; cbn [x_run]; [intros [= <- _]; auto|]. destruct (x_step false E x o) as [E' r] eqn:ST.
  destruct r as [x1 e1| | |]; try discriminate. destruct (x_run false E' x1 ops) as [x2 e2| | |] eqn:R; cbn [x_evs]; try discriminate. intros [= <- _] I.
  apply (IH _ _ _ _ R). destruct o; cbn [x_step] in ST.
  - injection ST as <- ST. intros C. assert (XC : x_closed x1 = x_closed x) by (pose proof (recv_fact false E x src fin) as RF; rewrite ST in RF; exact (xf_closed _ _ _ _ (proj1 RF))).
    rewrite XC in C. specialize (I C). unfold recv in ST. destruct (_ && _); [injection ST as <- _; exact I|]. cbv zeta in ST. unfold read_bidi in ST. cbn [x_st x_shut] in ST. rewrite I in ST.
    destruct (x_shut x); injection ST as <- _; exact I.
  - cbv zeta in ST. destruct (_ && _) eqn:BB; [injection ST as <- ST|injection ST as <- <- _; exact I].
    unfold resume in ST. destruct (process_blocked _ _ _ _) as [y ey| | |]; try discriminate. destruct (b_blk (x_st y)) eqn:B, (x_closed y) eqn:C; cbn [negb andb] in ST; try (injection ST as <- _; congruence). discriminate.
  - destruct (x_shut x); [injection ST as <- <- _; exact I|]. destruct (dec_cancel_stream _ _); try discriminate. injection ST as <- <- _. exact I.
  - destruct (b_blk (x_st x)) eqn:B; [injection ST as <- <- _; auto|discriminate].
Qed.
Lemma closing_waits h c id s : 0 <= s_cap (ke_set K) -> history K h c -> client_bidi id = true -> find_stream c id = Some s -> x_closed (st_x s) = true -> b_blk (x_st (st_x s)) = true.
Proof.
  intros CAP H CB F C. destruct (open_T K CAP h c id s H CB F) as [(E0 & d0 & rej & ops & d1 & _ & _ & _ & _ & _ & R & _) _ _ _ _].
  apply (run_closed _ _ _ _ _ R); [|exact C]. intros X. exfalso. unfold x_start in X. destruct rej; discriminate X.
Qed.
Lemma close_once h c o c' rv evs id : history K h c -> op_ok o -> kstep K c o = KOk c' rv evs -> client_bidi id = true -> is_open c id = true -> is_open c' id = false ->
  exists code a b, asked id (life id h ++ [mk_call o rv evs c']) = Some code /\ evs = a ++ KClosed id code :: b /\ close_codes id a = [] /\ no_callback id b.
Proof.
  intros H O S CB O1 O2. pose proof (h_wf K h c H) as W. unfold is_open in *. destruct (find_stream c id) as [s|] eqn:F; [|discriminate]. destruct (find_stream c' id) as [s'|] eqn:F'; [discriminate|].
  assert (FL : fl c id = Some (st_fl s)) by (unfold fl; rewrite F; reflexivity). assert (FL' : fl c' id = None) by (unfold fl; rewrite F'; reflexivity). rewrite asked_snoc.
  assert (STEP : (forall code, o <> OClose id code) -> exists code a b, asked id (life id h) = Some code /\ evs = a ++ KClosed id code :: b /\ close_codes id a = [] /\ no_callback id b).
  { intros NC. destruct (fl_next c o c' rv evs id W O CB S NC) as [[_ [X|[X1 X2]]]|(code & a & b & X1 & X2 & X3)]; try congruence.
    exists code, a, b. split; [|exact X3]. rewrite <- (hist_asked h c H id s CB F). congruence. }
  unfold asked1. cbn [ConnHist.c_op]. destruct o; try (apply STEP; intros; discriminate).
  destruct (Z.eqb_spec id0 id) as [->|N]; [|apply STEP; intros c0 [= E _]; congruence].
  pose proof (close_D K _ _ _ _ _ _ S) as X. rewrite F, FL', CB in X. destruct (b_blk _); [destruct X as [X _]; discriminate X|]. destruct X as [_ (n & ->)].
  exists code, (deferred id n), []. split; [reflexivity|]. split; [reflexivity|]. split; [apply codes_deferred|constructor].
Qed.
Lemma close_only h c o c' rv evs id : history K h c -> op_ok o -> kstep K c o = KOk c' rv evs -> client_bidi id = true -> (is_open c id = false \/ is_open c' id = true) -> close_codes id evs = [].
Proof.
  intros H O S CB OO. pose proof (h_wf K h c H) as W.
  assert (STEP : (forall code, o <> OClose id code) -> close_codes id evs = []).
  { intros NC. destruct (fl_next c o c' rv evs id W O CB S NC) as [[X _]|(code & a & b & X1 & X2 & _)]; [exact X|].
    exfalso. unfold fl, is_open in *. destruct (find_stream c id); [|discriminate]. destruct (find_stream c' id); [discriminate|]. destruct OO; discriminate. }
  destruct o; try (apply STEP; intros; discriminate). destruct (Z.eq_dec id0 id) as [->|N]; [|apply STEP; intros c0 [= E _]; congruence].
  pose proof (close_D K _ _ _ _ _ _ S) as X. unfold fl, is_open in *. destruct (find_stream c id) as [s|]; [|destruct X as (_ & _ & ->); reflexivity].
  destruct (b_blk _); [destruct X as [_ ->]; reflexivity|]. destruct OO; [discriminate|]. destruct (find_stream c' id); [destruct X as [X _]; discriminate X|discriminate].
Qed.
Lemma close_pending h c id code : 0 <= s_cap (ke_set K) -> history K h c -> client_bidi id = true -> is_open c id = true -> asked id (life id h) = Some code -> exists n, waits_for c id n.
Proof.
  intros CAP H CB OP A. unfold is_open in OP. destruct (find_stream c id) as [s|] eqn:F; [|discriminate]. pose proof (hist_asked h c H id s CB F) as E. rewrite A in E. unfold st_fl in E.
  destruct (x_closed (st_x s)) eqn:C; [|discriminate]. exists (s_ricnt (b_sctx (x_st (st_x s)))), s. split; [exact F|]. split; [eapply closing_waits; eauto|reflexivity].
Qed.
Lemma close_now c id code c' rv evs : is_open c id = true -> (forall n, ~ waits_for c id n) -> kstep K c (OClose id code) = KOk c' rv evs -> is_open c' id = false.
Proof.
  intros OP NW S. pose proof (close_D K _ _ _ _ _ _ S) as X. unfold is_open in *. destruct (find_stream c id) as [s|] eqn:F; [|discriminate]. destruct (b_blk (x_st (st_x s))) eqn:B.
  - exfalso. eapply NW. exists s. eauto.
  - destruct X as [X _]. unfold fl in X. destruct (find_stream c' id); [discriminate X|reflexivity].
Qed.
End CloseHist.
