(* Flow-control accounting on a request stream (C25). *)
From Verif Require Import Base BaseLemmas ConvModel RdVarint QpackIntModel QpackTabModel QpackTabProofs QpackDecModel QpackDecProofs
  QpackHistModel QpackHistProofs HttpModel Chunk Chunk2 BidiModel BidiHist BidiProofs BidiRun SecSuffix BidiSpec BidiCut SecGood.
Open Scope Z_scope.

Lemma delivered_app a b : delivered (a ++ b) = delivered a ++ delivered b.
Proof. induction a as [|e a IH]; [reflexivity|]. destruct e; cbn; rewrite IH; reflexivity. Qed.
Lemma delivered_data l : delivered (map BvData l) = l.
Proof. induction l; cbn; congruence. Qed.
Lemma delivered_hdr (tr : bool) l : delivered (map (if tr then BvTrailer else BvHeader) l) = [].
Proof. induction l; destruct tr; cbn; auto. Qed.
(* bytes consumed + delivered + left = bytes given *)
Definition acct (s : bst) (p : list Z) (ev : list bev) (s' : bst) (rest : list Z) : Prop :=
  b_cons s <= b_cons s' /\ b_cons s' - b_cons s + zlen (delivered ev) + zlen rest = zlen p.
Lemma bstep_acct E s a : b_inv s -> bytes a -> runnable b_ce s a ->
  match bstep true false E s a with
  | SGo s' rest _ ev | SStop s' rest ev => acct s a ev s' rest
  | SMore s' ev => acct s a ev s' []
  | _ => True
  end.
Proof.
  intros Hi B Rn. unfold bstep.
  assert (SP : forall n, 0 <= n -> n <= zlen a -> zlen (firstn (Z.to_nat n) a) = n /\ zlen (skipn (Z.to_nat n) a) = zlen a - n).
  { intros n N0 N. unfold zlen in *. rewrite firstn_length, skipn_length. lia. }
  pose proof (bi_left _ Hi) as L0. pose proof (zlen_nonneg _ a) as La.
  destruct (b_rd s) eqn:Rd.
  - destruct (rd_varint (b_rv s) a false) as [rv|v rest| |] eqn:V; cbn; auto.
    + unfold acct. cbn. rewrite ?zlen_nil. lia.
    + apply rd_varint_suf in V as [c ->]. unfold acct. cbn. rewrite ?zlen_app, ?zlen_nil. pose proof (zlen_nonneg _ c). lia.
  - destruct (rd_varint (b_rv s) a false) as [rv|v rest| |] eqn:V; auto; [unfold acct; cbn; rewrite ?zlen_nil; lia| |exact Logic.I].
    apply rd_varint_suf in V as [c ->]. rewrite zlen_app. pose proof (zlen_nonneg _ c). unfold frame_start, b_fail.
    destruct (b_ty s =? FRAME_DATA).
    { destruct (transit _ _ _ _) as [ph|e|]; cbn; auto. destruct (v =? 0); cbn; [|unfold acct; cbn; rewrite ?zlen_app, ?zlen_nil; lia].
      destruct (transit _ _ _ _); cbn; auto. unfold acct; cbn; rewrite ?zlen_app, ?zlen_nil; lia. }
    destruct (b_ty s =? FRAME_HEADERS).
    { destruct (transit _ _ _ _) as [ph|e|]; cbn; auto. destruct (v =? 0).
      - destruct (empty_headers_allowed _); cbn; auto. destruct (transit _ _ _ _); cbn; auto. unfold acct; cbn; rewrite ?zlen_app, ?zlen_nil; lia.
      - destruct ph; cbn; auto; unfold acct; cbn; rewrite ?zlen_app, ?zlen_nil; lia. }
    destruct (refused _); cbn; auto. unfold acct; cbn; rewrite ?zlen_app, ?zlen_nil; lia.
  - unfold data_step, b_fail. destruct (on_data_chunk _ _) as [h ok]. destruct ok; auto.
    set (n := Z.min (b_left s) (zlen a)). destruct (SP n ltac:(lia) ltac:(lia)) as [S1 S2].
    destruct (b_left s - n =? 0) eqn:Z0; [destruct (transit _ _ _ _); auto|]; unfold acct; cbn [b_cons b_reset]; rewrite delivered_data, S1; [lia|].
    rewrite ?zlen_nil. lia.
  - unfold headers_step. cbv zeta. set (n := Z.min (b_left s) (zlen a)). destruct (SP n ltac:(lia) ltac:(lia)) as [S1 S2].
    destruct (headers_split s a L0 B) as (B1 & B2 & _). fold n in B1, B2.
    destruct (dsec_good (b_dec s) (b_sctx s) (firstn (Z.to_nat n) a) (n =? b_left s) (bi_dec _ Hi) (bi_bad _ Hi) (bi_sec _ Hi) B1) as [_ DG].
    destruct (decode_section _ _ _ _) as [vs r]. cbn [snd] in DG.
    destruct (on_headers _ _ _ _ _ _) as [[h out] ok].
    set (trl := match b_ph s with HpTrailersBegin => true | _ => false end).
    assert (MA : forall s0 h p evs, b_cons s0 = b_cons s -> delivered evs = [] -> zlen p = zlen a ->
       match malformed s0 h p evs with SGo s' rest _ ev | SStop s' rest ev => acct s a ev s' rest | SMore s' ev => acct s a ev s' [] | _ => True end).
    { intros s0 h0 p evs C D P. unfold malformed, acct. cbn [b_cons]. rewrite delivered_app, D. cbn. rewrite ?zlen_nil. lia. }
    destruct ok; cbn [negb]; [|apply MA; auto; apply delivered_hdr].
    assert (HE : forall sc d, match headers_end E s h sc d a (skipn (Z.to_nat n) a) n (map (if trl then BvTrailer else BvHeader) out) with
      | SGo s' rest _ ev | SStop s' rest ev => acct s a ev s' rest | SMore s' ev => acct s a ev s' [] | _ => True end).
    { intros. unfold headers_end, trl. destruct (b_ph s); auto; cbv zeta;
      [match goal with |- context [if e_req E then ?u else ?v] => destruct (if e_req E then u else v) as [h' [|]] end|];
      try (apply MA; auto; apply (delivered_hdr false)).
      - destruct (transit _ _ _ _); auto. unfold acct. cbn [b_cons]. rewrite !delivered_app, (delivered_hdr false).
        match goal with |- context [delivered (if ?c then _ else _)] => destruct c end; cbn [delivered app]; rewrite ?zlen_nil; lia.
      - destruct (transit _ _ _ _); auto. unfold acct. cbn [b_cons negb andb]. rewrite !delivered_app, (delivered_hdr true).
        cbn [delivered app]; rewrite ?zlen_nil; lia. }
    destruct r as [sc v rest0|sc rest0|sc|d' sc|e d' sc|]; try contradiction; auto; try (apply HE).
    + destruct (e_full E); [exact Logic.I|]. unfold acct. cbn [b_cons]. rewrite delivered_hdr, zlen_nil, zlen_app. destruct DG as (_ & _ & _ & DG).
      assert (zlen rest0 <= n) by (unfold zlen in *; lia). lia.
    + destruct (b_left s - n =? 0) eqn:Z0; [apply HE|]. unfold acct. cbn [b_cons]. rewrite delivered_hdr, !zlen_nil. lia.
  - cbv zeta. set (n := Z.min (b_left s) (zlen a)). destruct (SP n ltac:(lia) ltac:(lia)) as [S1 S2].
    destruct (b_left s - n =? 0) eqn:Z0; unfold acct; cbn [b_cons b_reset b_setrd delivered]; rewrite ?zlen_nil; lia.
  - unfold acct; cbn; rewrite ?zlen_nil; lia.
Qed.
Lemma b_read_acct_t E s p fin : b_inv s -> bytes p ->
  match b_read true E s p fin with
  | ROk s' ev => acct s p ev s' []
  | RStop s' rest ev => acct s p ev s' rest
  | _ => True
  end.
Proof.
  intros Hi B.
  assert (F : match b_read true E s p false with ROk s' ev => acct s p ev s' [] | RStop s' rest ev => acct s p ev s' rest | _ => True end).
  { unfold b_read, b_run.
    assert (R1 : forall s, b_inv s -> acct s [] [] s []) by (intros; unfold acct; cbn; lia).
    assert (R2 : forall s1 p1 e1 s2 p2 e2 s3 p3, acct s1 p1 e1 s2 p2 -> acct s2 p2 e2 s3 p3 -> acct s1 p1 (e1 ++ e2) s3 p3).
    { unfold acct. intros. rewrite delivered_app, zlen_app. lia. }
    pose proof (run_rel (bstep true false E) 2 b_rank b_inv b_ce (bstep_sok E) acct R1 R2 (bstep_acct E) s p false Hi B ltac:(discriminate)) as R.
    destruct (run _ _ _ _ _ _); auto. }
  destruct fin; [|exact F]. rewrite b_read_fin by auto. destruct (b_read true E s p false) as [s' ev| | |]; auto.
  unfold b_finish. destruct (b_rd s'); auto. destruct (negb _); auto. destruct (transit _ _ _ _); auto.
  unfold acct in *. cbn [b_cons b_setrd]. rewrite delivered_app. cbn [delivered]. rewrite app_nil_r. lia.
Qed.
Lemma b_read_acct pre E s p fin : b_inv s -> bytes p ->
  match b_read pre E s p fin with
  | ROk s' ev => acct s p ev s' []
  | RStop s' rest ev => acct s p ev s' rest
  | _ => True
  end.
Proof.
  intros Hi B. destruct pre; [apply b_read_acct_t; auto|].
  destruct (b_read_pre E s p fin) as [-> |(e & e1 & e2 & -> & _ & _)]; [apply b_read_acct_t; auto|auto].
Qed.

(* over a history *)
Definition held (x : rx) : Z := zlen (inbytes (x_inq x)).
Definition bal (x : rx) (n : Z) (evs : list bev) (x' : rx) : Prop :=
  x_ret x <= x_ret x' /\ x_def x <= x_def x' /\
  (x_ret x' - x_ret x) + (x_def x' - x_def x) + zlen (delivered evs) + (held x' - held x) = n.
Definition rbal (x : rx) (n : Z) (r : xres) : Prop :=
  match r with XOk x' evs | XGone x' evs => bal x n evs x' | _ => True end.
Lemma a_recv_bal E x src fin : x_inv x -> bytes src -> rbal x (zlen src) (a_recv E x src fin).
Proof.
  intros [X1 X2 X3 X4] B. unfold a_recv. cbv zeta.
  pose proof (zlen_nonneg _ src) as L0.
  destruct ((zlen src =? 0) && negb fin) eqn:Z0.
  { apply andb_true_iff in Z0 as [Z0 _]. apply Z.eqb_eq in Z0. unfold rbal, bal, held, norm. cbn [x_ret x_def x_inq delivered].
    rewrite inbytes1, zlen_nil. lia. }
  destruct (x_shut x).
  { unfold rbal, bal, held, put. cbn [x_ret x_def x_inq delivered]. rewrite inbytes1, zlen_nil. lia. }
  destruct (b_blk (x_st x)).
  { unfold rbal, bal, held, put. cbn [x_ret x_def x_inq delivered]. rewrite inbytes1, zlen_nil, zlen_app. lia. }
  pose proof (b_read_acct true E (x_st x) src fin X1 B) as A.
  destruct (b_read true E (x_st x) src fin); auto; unfold rbal, bal, held, put, acct in *; cbn [x_ret x_def x_inq];
    rewrite inbytes1, ?zlen_app; rewrite ?zlen_nil in A; lia.
Qed.
Lemma a_proc_bal E x : bufs_ok (x_inq x) -> b_inv (x_st x) -> rbal x 0 (a_proc E x).
Proof.
  intros Q X1. unfold a_proc. cbv zeta. pose proof (inbytes_bytes _ Q) as B.
  pose proof (zlen_nonneg _ (inbytes (x_inq x))) as L0.
  destruct (zlen (inbytes (x_inq x)) =? 0) eqn:Z0.
  { unfold rbal, bal, held, norm. cbn [x_ret x_def x_inq delivered]. rewrite inbytes1, zlen_nil. lia. }
  destruct (x_shut x).
  { unfold rbal, bal, held, put. cbn [x_ret x_def x_inq delivered]. rewrite inbytes1, zlen_nil. lia. }
  pose proof (b_read_acct true E (x_st x) (inbytes (x_inq x)) (x_eof x) X1 B) as A.
  destruct (b_read true E (x_st x) (inbytes (x_inq x)) (x_eof x)); auto; unfold rbal, bal, held, put, acct in *; cbn [x_ret x_def x_inq];
    rewrite inbytes1; rewrite ?zlen_nil in *; lia.
Qed.
Lemma bal_norm x n evs x' : bal x n evs (norm x') <-> bal x n evs x'.
Proof. unfold bal, held, norm. cbn [x_ret x_def x_inq]. rewrite inbytes1. tauto. Qed.
Lemma rbal_nrm x n r : rbal x n (nrm r) <-> rbal x n r.
Proof. destruct r; cbn; try tauto; apply bal_norm. Qed.
Lemma bal_delete x n evs x' : bal x n evs x' -> rbal x n (x_delete x' evs).
Proof.
  unfold x_delete, rbal, bal, held, x_add, buffered_len. cbn [x_ret x_def x_inq]. change (inbytes []) with (@nil Z). rewrite ?zlen_nil.
  pose proof (zlen_nonneg _ (inbytes (x_inq x'))). lia.
Qed.
Definition opbytes (o : rop) : Z := match o with RRecv src _ => zlen src | _ => 0 end.
Lemma step_bal E x o : x_inv x -> rop_bytes o -> rop_ok E x o -> rbal x (opbytes o) (snd (x_step true E x o)).
Proof.
  intros Hx B O. destruct o as [src fin|E' d| |]; cbn [x_step snd rop_bytes rop_ok opbytes] in *.
  - destruct (recv_abs E x src fin Hx B) as [P _]. apply rbal_nrm. rewrite P. apply a_recv_bal; auto.
  - destruct Hx as [X1 X2 X3 X4]. destruct O as [_ O]. destruct (evolves_ok _ _ O (conj (bi_dec _ X1) (bi_bad _ X1))) as [D1 D2].
    pose proof (st_dec_inv _ d X1 D1 D2) as I1.
    destruct (_ && _); cbn [snd].
    + assert (P : rbal x 0 (process_blocked true (S (length (x_inq x))) E' (x_set_st x (st_blk (st_dec (x_st x) d) false)))).
      { destruct (proc_abs E' (x_inq x) (x_set_st x (st_blk (st_dec (x_st x) d) false)) (S (length (x_inq x)))) as [P _]; auto;
          [apply st_blk_inv; auto|]. apply rbal_nrm. rewrite P.
        apply (a_proc_bal E' (x_set_st x (st_blk (st_dec (x_st x) d) false))); auto. apply st_blk_inv; auto. }
      unfold resume. change (x_inq (x_set_st x (st_blk (st_dec (x_st x) d) false))) with (x_inq x).
      destruct (process_blocked true (S (length (x_inq x))) E' _) as [x' ev|x' ev|e ev|]; auto.
      destruct (negb _ && _); auto. apply bal_delete; auto.
    + unfold rbal, bal, held, x_set_st. cbn [x_ret x_def x_inq delivered]. rewrite ?zlen_nil. lia.
  - assert (RR : rbal x 0 (XOk x [])) by (unfold rbal, bal; cbn [delivered]; rewrite ?zlen_nil; lia).
    destruct (x_shut x); auto. destruct (dec_cancel_stream _ _); auto.
  - assert (RR : bal x 0 [] x) by (unfold bal; cbn [delivered]; rewrite ?zlen_nil; lia).
    destruct (b_blk (x_st x)); [exact RR|apply bal_delete; auto].
Qed.
Lemma bal_trans x y z n m e1 e2 : bal x n e1 y -> bal y m e2 z -> bal x (n + m) (e1 ++ e2) z.
Proof. unfold bal. rewrite delivered_app, zlen_app. lia. Qed.
Lemma received_cons o ops : zlen (received (o :: ops)) = opbytes o + zlen (received ops).
Proof. destruct o; cbn [received opbytes]; rewrite ?zlen_app; lia. Qed.
Lemma run_bal ops : forall E x, x_inv x -> orop_bytes ops -> thist E x ops ->
  match x_run true E x ops with
  | XOk x' evs => x_inv x' /\ bal x (zlen (received ops)) evs x'
  | XGone x' evs => exists o1 o2, ops = o1 ++ o2 /\ x_run true E x o1 = XGone x' evs /\ bal x (zlen (received o1)) evs x'
  | XErr _ _ => True
  | XAbort => False
  end.
Proof.
  induction ops as [|o ops IH]; intros E x Hx B T.
  - cbn [x_run]. split; [auto|]. unfold bal. cbn. lia.
  - inversion B as [|? ? B1 B2]; subst. cbn [x_run thist] in *. destruct T as [O T].
    pose proof (step_bal E x o Hx B1 O) as SB. destruct (step_same E x x o Hx Hx (same_rx_refl x) B1 O) as (_ & _ & R & _).
    destruct (x_step true E x o) as [E1 r] eqn:SE. cbn [snd] in *. destruct r as [x1 e1|x1 e1|e e1|]; cbn [r_inv rbal] in *; auto.
    + specialize (IH E1 x1 R B2 T). rewrite received_cons.
      destruct (x_run true E1 x1 ops) as [x2 e2|x2 e2|e e2|] eqn:XE; cbn [x_evs]; auto.
      * destruct IH as [I1 I2]. split; [auto|eapply bal_trans; eauto].
      * destruct IH as (o1 & o2 & -> & I1 & I2). exists (o :: o1), o2. split; [reflexivity|]. cbn [x_run]. rewrite SE, I1. split; [reflexivity|].
        rewrite received_cons. eapply bal_trans; eauto.
    + exists [o], ops. split; [reflexivity|]. cbn [x_run]. rewrite SE. split; [reflexivity|].
      rewrite received_cons. cbn [received]. rewrite ?zlen_nil, Z.add_0_r. exact SB.
Qed.
Theorem accounting E id h d ops : dec_ok d -> 0 <= id < 2 ^ 62 -> bytes (received ops) -> hist_ok E (rx_init id h d) ops ->
  match x_run false E (rx_init id h d) ops with
  | XOk x evs => 0 <= x_ret x /\ 0 <= x_def x /\
      x_ret x + x_def x + zlen (delivered evs) + zlen (inbytes (x_inq x)) = zlen (received ops)
  | XGone x evs => exists o1 o2, ops = o1 ++ o2 /\ x_run false E (rx_init id h d) o1 = XGone x evs /\
      0 <= x_ret x /\ 0 <= x_def x /\
      x_ret x + x_def x + zlen (delivered evs) = zlen (received o1)
  | XErr _ _ => True
  | XAbort => False
  end.
Proof.
  intros D I B H. apply received_bytes in B. apply hist_thist in H. pose proof (rx_init_inv id h d D I) as Hx.
  pose proof (run_bal ops E (rx_init id h d) Hx B H) as R.
  destruct (run_pre ops E (rx_init id h d)) as [-> |(e & v1 & v2 & -> & _ & _)]; [|auto].
  destruct (x_run true E (rx_init id h d) ops) as [x ev|x ev|e ev|] eqn:XE; auto.
  - destruct R as [_ R]. unfold bal, held, rx_init in R. cbn [x_ret x_def x_inq] in R. change (inbytes []) with (@nil Z) in R. rewrite ?zlen_nil in R. lia.
  - destruct R as (o1 & o2 & -> & R1 & R2). exists o1, o2. split; [auto|].
    assert (X1 : x_run false E (rx_init id h d) o1 = XGone x ev).
    { destruct (run_pre o1 E (rx_init id h d)) as [-> |(e & v1 & v2 & _ & K & _)]; [auto|congruence]. }
    split; [auto|].
    assert (IQ : forall ops E x0 x evs, x_run true E x0 ops = XGone x evs -> x_inq x = []).
    { clear. induction ops as [|o ops IH]; intros E x0 x evs; cbn [x_run]; [discriminate|].
      assert (K : forall x0 x evs, snd (x_step true E x0 o) = XGone x evs -> x_inq x = []).
      { clear. intros x0 x evs. destruct o as [src fin|E' d| |]; cbn [x_step snd].
        - unfold recv. destruct (_ && _); [discriminate|]. cbv zeta. destruct (read_bidi _ _ _ _ _); discriminate.
        - destruct (_ && _); cbn [snd]; [|discriminate]. unfold resume.
          assert (NG : forall f x, match process_blocked true f E' x with XGone _ _ => False | _ => True end).
          { clear. induction f as [|f IH]; intros x; cbn [process_blocked]; auto. destruct (x_inq x) as [|[b r] q]; auto.
            destruct (read_bidi _ _ _ _ _) as [x' np nc ev|e ev|]; auto. destruct (x_inq x') as [|[b' r'] q']; auto. cbv zeta.
            destruct (b_blk _); auto. specialize (IH (x_add x' (if zlen (skipn (Z.to_nat np) b') =? 0 then q' else (skipn (Z.to_nat np) b', r') :: q') 0 nc)).
            destruct (process_blocked true f E' _); auto. }
          match goal with |- context [process_blocked true ?f E' ?y] => specialize (NG f y) end.
          destruct (process_blocked true _ E' _) as [x' ev|x' ev|e ev|]; [|contradiction|discriminate|discriminate].
          destruct (negb _ && _); [|discriminate]. unfold x_delete. intros [= <- _]. reflexivity.
        - destruct (x_shut x0); [discriminate|]. destruct (dec_cancel_stream _ _); discriminate.
        - destruct (b_blk (x_st x0)); [discriminate|]. unfold x_delete. intros [= <- _]. reflexivity. }
      specialize (K x0). destruct (x_step true E x0 o) as [E1 [x1 e1|x1 e1|e e1|]]; try discriminate.
      - destruct (x_run true E1 x1 ops) as [x2 e2|x2 e2|e e2|] eqn:XE; cbn [x_evs]; try discriminate.
        intros [= <- _]. eapply IH; eauto.
      - intros H. apply (K x evs). exact H. }
    unfold bal, held, rx_init in R2. cbn [x_ret x_def x_inq] in R2. rewrite (IQ _ _ _ _ _ R1) in R2.
    change (inbytes []) with (@nil Z) in R2. rewrite ?zlen_nil in R2. lia.
Qed.
