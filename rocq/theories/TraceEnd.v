(* C23: the end of the stream is reported *)
From Verif Require Import Base BaseLemmas ConvModel RdVarint QpackTabModel QpackDecModel QpackDecProofs QpackHistModel QpackHistProofs
  HttpModel HttpSpec Chunk Chunk2 BidiModel BidiHist BidiProofs BidiRun SecSuffix BidiSpec BidiCut TraceSpec TraceProofs.
Open Scope Z_scope.

Lemma run_stop_hdr pre fin E f : forall s p busy s' rest ev,
  run_fuel (bstep pre fin E) f s p busy = RStop s' rest ev -> b_rd s' = FHeaders.
Proof.
  induction f as [|f IH]; intros s p busy s' rest ev; [destruct p, busy; discriminate|].
  assert (D : (p = [] /\ busy = false) \/ forall g : bst -> list Z -> sres bst bev, run_fuel g (S f) s p busy = turn g s p (run_fuel g f)).
  { destruct p; [destruct busy|]; auto. }
  destruct D as [[-> ->]|D]; [discriminate|]. rewrite D. unfold turn.
  assert (K : forall s1 r1 e1, bstep pre fin E s p = SStop s1 r1 e1 -> b_rd s1 = FHeaders).
  { intros s1 r1 e1. unfold bstep. destruct (b_rd s).
    - destruct (rd_varint _ _ _); discriminate.
    - destruct (rd_varint _ _ _); try discriminate. unfold frame_start, b_fail.
      repeat match goal with |- context [match ?c with _ => _ end] => destruct c end; discriminate.
    - unfold data_step, b_fail. destruct (on_data_chunk _ _) as [h [|]]; [|discriminate]. cbv zeta.
      destruct (_ =? 0); [destruct (transit _ _ _ _)|]; discriminate.
    - unfold headers_step. cbv zeta. destruct (decode_section _ _ _ _) as [vs q]. destruct (on_headers _ _ _ _ _ _) as [[h out] ok].
      assert (HE : forall sc d p r c ev s1 r1 e1, headers_end E s h sc d p r c ev <> SStop s1 r1 e1).
      { intros. unfold headers_end, malformed. destruct (b_ph s); try discriminate; cbv zeta;
          [match goal with |- context [if e_req E then ?u else ?v] => destruct (if e_req E then u else v) as [h' [|]] end]; discriminate. }
      destruct ok; cbn [negb]; [|discriminate]. destruct q; try discriminate.
      + destruct (e_full E); [discriminate|]. intros [= <- _ _]. reflexivity.
      + destruct (_ =? 0); [intros X; apply HE in X; contradiction|discriminate].
      + intros X; apply HE in X; contradiction.
    - cbv zeta. destruct (_ =? 0); discriminate.
    - discriminate. }
  destruct (bstep pre fin E s p) as [s1 r1 b1 e1|s1 e1|s1 r1 e1|e s1 e1|]; try discriminate.
  - specialize (IH s1 r1 b1). destruct (run_fuel (bstep pre fin E) f s1 r1 b1) as [s2 e2|s2 r2 e2|e s2 e2|]; cbn [rev_]; try discriminate.
    intros [= <- <- _]. eapply IH; reflexivity.
  - intros [= <- <- <-]. eapply K; reflexivity.
Qed.
Definition done (s : bst) : Prop := b_ph s = HpEnd \/ b_rd s = FIgnRest \/ b_rd s = FHeaders.
Lemma b_read_done pre E s p fin :
  match b_read pre E s p fin with
  | ROk s' _ => fin = true -> done s'
  | RStop s' _ _ => b_rd s' = FHeaders
  | _ => True
  end.
Proof.
  unfold b_read, b_run, run. pose proof (run_stop_hdr pre fin E (S (measure 2 b_rank s p)) s p false) as K.
  destruct (run_fuel (bstep pre fin E) (S (measure 2 b_rank s p)) s p false) as [s' ev|s' rest ev| |]; auto; [|eapply K; eauto].
  destruct fin; [|discriminate]. unfold b_finish. destruct (b_rd s') eqn:Rd; auto; [|intros _; right; left; auto].
  destruct (negb _); auto. destruct (transit _ _ _ _) as [ph| |] eqn:T; auto. intros _. left. cbn [b_ph b_setrd].
  destruct (b_ph s'); cbn [transit] in T; try discriminate; destruct (on_remote_end_stream _); try discriminate; injection T as <-; reflexivity.
Qed.
Definition e_inv (x : rx) : Prop :=
  (b_blk (x_st x) = true -> b_rd (x_st x) = FHeaders) /\ (x_eof x = true -> x_shut x = false -> done (x_st x)).
Definition no_recv (ops : list rop) : Prop := Forall (fun o => match o with RRecv _ _ => False | _ => True end) ops.
Definition re_inv (r : xres) : Prop := match r with XOk x _ => e_inv x | _ => True end.
Lemma re_nrm r : re_inv (nrm r) <-> re_inv r.
Proof. destruct r; cbn; tauto. Qed.
Lemma step_end E x o : x_inv x -> rop_bytes o -> rop_ok E x o -> e_inv x ->
  (x_eof x = true -> match o with RRecv _ _ => False | _ => True end) -> re_inv (snd (x_step true E x o)).
Proof.
  intros Hx B O EI NR. pose proof Hx as [X1 X2 X3 X4]. pose proof EI as [E1 E2].
  destruct o as [src fin|E' d| |]; cbn [x_step snd rop_bytes rop_ok] in *.
  - assert (EO : x_eof x = false) by (destruct (x_eof x); auto; exfalso; auto). clear NR.
    destruct (recv_abs E x src fin Hx B) as [P _]. apply re_nrm. rewrite P. unfold a_recv. cbv zeta.
    destruct (_ && _); [exact EI|]. destruct (x_shut x) eqn:Sh.
    { split; cbn [x_st put x_eof x_shut]; [auto|congruence]. }
    destruct (b_blk (x_st x)) eqn:Bk.
    { split; cbn [x_st put x_eof x_shut]; [auto|]. intros _ _. right. right. auto. }
    pose proof (b_read_done true E (x_st x) src fin) as R. pose proof (b_read_blk true E (x_st x) src fin) as R2.
    destruct (b_read true E (x_st x) src fin); cbn [re_inv]; auto; split; cbn [x_st put x_eof x_shut]; rewrite ?EO; cbn [orb]; auto.
    + rewrite R2 by auto. discriminate.
    + intros _ _. right. right. auto.
  - destruct O as [_ O]. destruct (evolves_ok _ _ O (conj (bi_dec _ X1) (bi_bad _ X1))) as [D1 D2].
    pose proof (st_dec_inv _ d X1 D1 D2) as I1.
    destruct (_ && _) eqn:RS; cbn [snd]; [|exact EI].
    apply andb_true_iff in RS as [RS _]. change (b_blk (st_dec (x_st x) d)) with (b_blk (x_st x)) in RS.
    set (y := x_set_st x (st_blk (st_dec (x_st x) d) false)).
    assert (EY : e_inv y). { split; [discriminate|]. intros _ _. right. right. exact (E1 RS). }
    assert (P : re_inv (process_blocked true (S (length (x_inq y))) E' y)).
    { destruct (proc_abs E' (x_inq y) y (S (length (x_inq y)))) as [P _]; auto; [apply st_blk_inv; auto|].
      apply re_nrm. rewrite P. unfold a_proc. cbv zeta. destruct (_ =? 0); [exact EY|]. destruct (x_shut y); [exact EY|].
      pose proof (b_read_done true E' (x_st y) (inbytes (x_inq y)) (x_eof y)) as R. pose proof (b_read_blk true E' (x_st y) (inbytes (x_inq y)) (x_eof y)) as R2.
      destruct (b_read true E' (x_st y) (inbytes (x_inq y)) (x_eof y)); cbn [re_inv]; auto; split; cbn [x_st put x_eof x_shut]; auto.
      + rewrite R2 by auto. discriminate.
      + intros _ _. right. right. auto. }
    unfold resume. destruct (process_blocked true _ E' y) as [x' ev|x' ev|e ev|]; cbn [re_inv]; auto. destruct (_ && _); cbn; auto.
  - destruct (x_shut x) eqn:Sh; [exact EI|]. destruct (dec_cancel_stream _ _); cbn [re_inv]; auto. split; [exact E1|]. cbn. discriminate.
  - destruct (b_blk (x_st x)) eqn:Bk; [|exact Logic.I]. split; cbn; [intros _; exact (E1 eq_refl)|exact E2].
Qed.
(* the transport delivers nothing after the end of the stream *)
Fixpoint fin_last (ops : list rop) : Prop :=
  match ops with
  | [] => True
  | RRecv _ fin :: ops' => (fin = true -> no_recv ops') /\ fin_last ops'
  | _ :: ops' => fin_last ops'
  end.
Lemma step_eof E x o : x_inv x -> rop_bytes o -> rop_ok E x o ->
  match snd (x_step true E x o) with
  | XOk x' _ => x_eof x' = true -> x_eof x = true \/ exists src, o = RRecv src true
  | _ => True end.
Proof.
  intros Hx B O. pose proof Hx as [X1 X2 X3 X4].
  assert (N : forall r (P : rx -> Prop), (forall x, P (norm x) -> P x) -> match nrm r with XOk x _ => P x | _ => True end -> match r with XOk x _ => P x | _ => True end).
  { intros r P NP. destruct r; cbn; auto. }
  destruct o as [src fin|E' d| |]; cbn [x_step snd rop_bytes rop_ok] in *.
  - destruct (recv_abs E x src fin Hx B) as [P _].
    apply (N (recv true E x src fin) (fun x' => x_eof x' = true -> x_eof x = true \/ exists s, RRecv src fin = RRecv s true)); [auto|].
    rewrite P. unfold a_recv. cbv zeta.
    assert (Q : x_eof x || fin = true -> x_eof x = true \/ exists s, RRecv src fin = RRecv s true).
    { intros H. apply orb_true_iff in H as [H| ->]; eauto. }
    destruct (_ && _); [cbn; auto|]. destruct (x_shut x); [exact Q|]. destruct (b_blk (x_st x)); [exact Q|].
    destruct (b_read true E (x_st x) src fin); auto.
  - destruct O as [_ O]. destruct (evolves_ok _ _ O (conj (bi_dec _ X1) (bi_bad _ X1))) as [D1 D2].
    pose proof (st_dec_inv _ d X1 D1 D2) as I1.
    destruct (_ && _) eqn:RS; cbn [snd]; [|cbn; auto].
    set (y := x_set_st x (st_blk (st_dec (x_st x) d) false)).
    assert (P : match process_blocked true (S (length (x_inq y))) E' y with XOk x' _ => x_eof x' = true -> x_eof x = true | _ => True end).
    { destruct (proc_abs E' (x_inq y) y (S (length (x_inq y)))) as [P _]; auto; [apply st_blk_inv; auto|].
      apply (N _ (fun x' => x_eof x' = true -> x_eof x = true)); [auto|]. rewrite P. unfold a_proc. cbv zeta.
      destruct (_ =? 0); [cbn; auto|]. destruct (x_shut y); [cbn; auto|]. destruct (b_read true E' _ _ _); cbn; auto. }
    unfold resume. destruct (process_blocked true _ E' y) as [x' ev|x' ev|e ev|]; auto.
    destruct (negb (b_blk (x_st x')) && x_closed x'); [exact Logic.I|auto].
  - destruct (x_shut x); [auto|]. destruct (dec_cancel_stream _ _); cbn; auto.
  - destruct (b_blk (x_st x)); cbn; auto.
Qed.
Lemma run_end ops : forall E x, x_inv x -> orop_bytes ops -> thist E x ops -> e_inv x -> fin_last ops -> (x_eof x = true -> no_recv ops) ->
  re_inv (x_run true E x ops).
Proof.
  induction ops as [|o ops IH]; intros E x Hx B T EI FL NR; cbn [x_run thist] in *; [exact EI|].
  inversion B as [|? ? B1 B2]; subst. destruct T as [O T].
  assert (NO : x_eof x = true -> match o with RRecv _ _ => False | _ => True end) by (intros H; specialize (NR H); inversion NR; auto).
  pose proof (step_end E x o Hx B1 O EI NO) as SE. pose proof (step_eof E x o Hx B1 O) as SF.
  destruct (step_same E x x o Hx Hx (same_rx_refl x) B1 O) as (_ & _ & R & _).
  destruct (x_step true E x o) as [E3 q]. cbn [fst snd] in *. destruct q as [x1 e1|x1 e1|e e1|]; auto.
  assert (RR : re_inv (x_run true E3 x1 ops)).
  { apply IH; auto; [destruct o; cbn [fin_last] in FL; tauto|]. intros H. destruct (SF H) as [H1|[src ->]].
    - specialize (NR H1). inversion NR; auto.
    - cbn [fin_last] in FL. apply FL; auto. }
  destruct (x_run true E3 x1 ops); auto.
Qed.
Lemma leads_complete r evs st : leads r st evs Complete -> st = Complete \/ In BvEndStream evs.
Proof.
  remember Complete as c eqn:C. induction 1 as [st|st e st1 evs st' N L IH]; auto. destruct (IH C) as [-> |I]; [|right; right; auto].
  inversion N; subst; try discriminate; auto; right; left; auto.
Qed.
Lemma leads_refused r evs st : leads r st evs Refused -> st = Refused \/ In (BvResetStream 270) evs.
Proof.
  remember Refused as c eqn:C. induction 1 as [st|st e st1 evs st' N L IH]; auto. destruct (IH C) as [-> |I]; [|right; right; auto].
  inversion N; subst; try discriminate; auto; try contradiction; right; left; auto.
Qed.
Theorem end_reported r sf E id d ops x evs : env_of r sf E -> envs_ok r sf ops -> dec_ok d -> 0 <= id < 2 ^ 62 ->
  bytes (received ops) -> hist_ok E (rx_init id (http_of r) d) ops -> fin_last ops ->
  x_run false E (rx_init id (http_of r) d) ops = XOk x evs -> x_eof x = true -> x_shut x = false ->
  In BvEndStream evs \/ In (BvResetStream 270) evs \/ b_rd (x_st x) = FHeaders.
Proof.
  intros EV EO D I B H FL XR XE XS.
  apply received_bytes in B. apply hist_thist in H. pose proof (rx_init_inv id (http_of r) d D I) as Hx.
  pose proof (run_link r sf ops E _ AtStart EV EO Hx B H (link_init r sf id d)) as R.
  assert (EI : e_inv (rx_init id (http_of r) d)) by (split; cbn; discriminate).
  pose proof (run_end ops E _ Hx B H EI FL ltac:(discriminate)) as RE.
  destruct (run_pre ops E (rx_init id (http_of r) d)) as [K |(e & v1 & v2 & K & _)]; [|congruence].
  rewrite XR in K. rewrite <- K in R, RE. destruct R as (st & R & L). destruct RE as [_ RE].
  unfold link in L. destruct (RE XE XS) as [Q|[Q|Q]]; auto.
  - rewrite Q in L. destruct (b_rd (x_st x)); cbn [linkp] in L; subst st;
      try (destruct (leads_complete _ _ _ R) as [?|?]; [discriminate|auto]); destruct (leads_refused _ _ _ R) as [?|?]; [discriminate|auto].
  - rewrite Q in L. subst st. destruct (leads_refused _ _ _ R) as [?|?]; [discriminate|auto].
Qed.
