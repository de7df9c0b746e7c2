(* Histories of API calls: what a stream sends *)
From Verif Require Import Base BaseLemmas ConvModel ConvSpec QpackTabModel QpackDecModel ControlModel TxModel TxSpec TxProofs TxRefine TxFill TxTrace ConnModel ConnStep ConnWf ConnDecomp ConnHist ConnRecvHist SendSpec ConnKind ConnTx TxGhost SendWire ConnOffer ConnSend ConnSend2.
Open Scope Z_scope.

(* the end of a stream *)
Lemma fin_sub_app a b : fin_sub (a ++ b) <-> fin_sub a \/ fin_sub b.
Proof. unfold fin_sub. split; [intros (f & H); apply in_app_iff in H as [H|H]; eauto|intros [(f & H)|(f & H)]; exists f; apply in_app_iff; auto]. Qed.
Lemma emit_end E a es b : emit E a es b -> (a_end b = true <-> a_end a = true \/ exists i, (a_rd a <= i < a_rd b)%nat /\ rd_end E i) /\ (a_rd a <= a_rd b)%nat.
Proof.
  intros H. destruct H; cbn [a_end a_rd]; (split; [|lia]).
  1-4: split; [auto|intros [H1|(i & H1 & _)]; [auto|lia]].
  - split.
    + intros H2. apply orb_true_iff in H2 as [H2|H2]; [auto|]. right. exists j. split; [lia|]. destruct eof, ne; try discriminate. exists vecs. auto.
    + intros [->|(i & B & v & R)]; [reflexivity|]. assert (i = j) by lia. subst i. rewrite R in H. injection H as _ <- <-. apply orb_true_r.
  - split.
    + intros H2. apply orb_true_iff in H2 as [H2|H2]; [auto|]. right. exists j. split; [lia|]. destruct ne; try discriminate. exists vecs. auto.
    + intros [->|(i & B & v & R)]; [reflexivity|]. assert (i = j) by lia. subst i. rewrite R in H. injection H as _ <-. apply orb_true_r.
  - split; [auto|]. intros [H1|(i & B & v & R)]; [auto|]. assert (i = j) by lia. subst i. congruence.
Qed.
Lemma emits_end E a es b : emits E a es b -> (a_end b = true <-> a_end a = true \/ exists i, (a_rd a <= i < a_rd b)%nat /\ rd_end E i) /\ (a_rd a <= a_rd b)%nat.
Proof.
  induction 1; [split; [split; [auto|intros [H|(i & H & _)]; [auto|lia]]|lia]|]. apply emit_end in H as [H2 L2]. destruct IHemits as [I1 L1]. split; [|lia]. rewrite I1, H2. split.
  - intros [[H3|(i & B & R)]|(i & B & R)]; [auto| |]; right; exists i; (split; [lia|auto]).
  - intros [H3|(i & B & R)]; [auto|]. destruct (Nat.lt_ge_cases i (a_rd b)); [left; right|right]; exists i; (split; [lia|auto]).
Qed.
Lemma same_end E a : a_end a = true <-> a_end a = true \/ fin_sub [] \/ exists i, (a_rd a <= i < a_rd a)%nat /\ rd_end E i.
Proof. split; [auto|]. intros [H|[(f & [])|(i & H & _)]]; [auto|lia]. Qed.
Lemma call_end E L a o r b : call E L a o r b -> (a_end b = true <-> a_end a = true \/ fin_sub (tv1 (o, r)) \/ exists i, (a_rd a <= i < a_rd b)%nat /\ rd_end E i) /\ (a_rd a <= a_rd b)%nat.
Proof.
  assert (NF : forall log, (forall f, ~ In (TSubmit f true) log) -> ~ fin_sub log) by (intros log H (f & I); eapply H; eauto).
  assert (SAME : forall en k log, (forall f, ~ In (TSubmit f true) log) -> (en = true <-> en = true \/ fin_sub log \/ exists i, (k <= i < k)%nat /\ rd_end E i) /\ (k <= k)%nat).
  { intros a1 k log H1. split; [|lia]. split; [auto|]. intros [H|[H|(i & H & _)]]; [auto|destruct (NF _ H1 H)|lia]. }
  intros H. destruct H; cbn [tv1 a_end a_rd]; try (apply SAME; cbn; intuition discriminate).
  - split; [|lia]. rewrite orb_true_iff. split.
    + intros [H| ->]; [auto|]. right; left. exists frs. left; reflexivity.
    + intros [H|[(f & [H|[]])|(i & H & _)]]; [auto| |lia]. injection H as _ ->. auto.
  - destruct (a_blk a); [destruct H as [_ ->]; apply SAME; cbn; intuition discriminate|]. apply emits_end in H as [H L2]. split; [|auto]. rewrite H. split; [intuition|]. intros [X|[(f & [X|[]])|X]]; auto; discriminate.
  - destruct (a_blk a); [destruct H as [_ ->]; apply SAME; cbn; intuition discriminate|]. apply emits_end in H as [H L2]. split; [|auto]. rewrite H. split; [intuition|]. intros [X|[(f & [])|X]]; auto.
Qed.
Lemma calls_end E L a tr b : calls E L a tr b -> (a_end b = true <-> a_end a = true \/ fin_sub (tvis tr) \/ exists i, (a_rd a <= i < a_rd b)%nat /\ rd_end E i) /\ (a_rd a <= a_rd b)%nat.
Proof.
  induction 1; [split; [apply same_end|lia]|]. apply call_end in H as [H2 L2]. destruct IHcalls as [I1 L1]. split; [|lia]. rewrite I1, H2. change (tvis ((o, r) :: tr)) with (tv1 (o, r) ++ tvis tr). rewrite fin_sub_app. split.
  - intros [[H3|[H3|(i & B & R)]]|[H3|(i & B & R)]]; auto; right; right; exists i; (split; [lia|auto]).
  - intros [H3|[[H3|H3]|(i & B & R)]]; auto. destruct (Nat.lt_ge_cases i (a_rd b)); [left; right; right|right; right]; exists i; (split; [lia|auto]).
Qed.
(* what [says] says of frames that are neither sections nor bodies *)
Lemma says_ctl E l open k j fs : says E l open k j fs -> Forall ctl_frame l -> open = false /\ k = O /\ j = O /\ Forall2 ctl_wire l fs.
Proof.
  induction 1; intros F; try (apply Forall_app in F as [F0 F1]; inversion F1; subst).
  - auto.
  - destruct (IHsays F0) as (_ & -> & -> & G). repeat split; auto. apply Forall2_app; [auto|]. constructor; [cbn; auto|constructor].
  - destruct (IHsays F0) as (_ & -> & -> & G). repeat split; auto. apply Forall2_app; [auto|]. constructor; [cbn; auto|constructor].
  - destruct (IHsays F0) as (_ & -> & -> & G). repeat split; auto. apply Forall2_app; [auto|]. constructor; [cbn; auto|constructor].
  - contradiction.
  - contradiction.
  - destruct (IHsays F) as (D & _). discriminate.
  - destruct (IHsays F) as (D & _). discriminate.
  - destruct (IHsays F) as (D & _). discriminate.
Qed.
(* streams without frames *)
Definition no_sub (o : op) : bool := match o with OSubmit _ _ => false | _ => true end.
Lemma emits_none E a es b : emits E a es b -> a_pend a = [] -> b = a /\ es = [].
Proof. destruct 1; auto. intros P. exfalso. destruct H; discriminate P. Qed.
Lemma calls_plain E L a tr b : calls E L a tr b -> Forall (fun x => no_sub (fst x) = true) tr -> a_pend a = [] -> a_pend b = [] /\ a_end b = a_end a /\ a_rd b = a_rd a /\ submitted (tvis tr) = [].
Proof.
  induction 1; intros F P; [auto|]. inversion F; subst. cbn [fst] in *.
  assert (a_pend b = [] /\ a_end b = a_end a /\ a_rd b = a_rd a /\ submitted (tv1 (o, r)) = []) as (P1 & P2 & P3 & P4).
  { destruct H; try discriminate; cbn [a_pend a_end a_rd tv1] in *; auto.
    - destruct (a_blk a); [destruct H as [_ ->]; auto|]. apply emits_none in H as [-> _]; auto.
    - destruct (a_blk a); [destruct H as [_ ->]; auto|]. apply emits_none in H as [-> _]; auto. }
  destruct (IHcalls H4 P1) as (Q1 & Q2 & Q3 & Q4). change (tvis ((o, r) :: tr)) with (tv1 (o, r) ++ tvis tr). rewrite submitted_app, P4, Q4. repeat split; congruence.
Qed.
Lemma lawful_sent E tr : forall L a b, calls E L a tr b -> (forall pre o r post, tr = pre ++ (o, r) :: post -> TxSpec.op_ok (led_after L pre) o) -> l_sent L <= l_hi L -> l_sent (led_after L tr) <= l_hi (led_after L tr).
Proof.
  induction tr as [|[o r] tr IH]; intros L a b C LW S; [exact S|]. inversion C as [|? ? ? ? b0 ? ? H3 H5]; subst. change (led_after L ((o, r) :: tr)) with (led_after (led_step L o r) tr). eapply IH; [exact H5| |].
  - intros pre o' r' post E'. apply (LW ((o, r) :: pre) o' r' post). rewrite E'. reflexivity.
  - pose proof (LW [] o r tr eq_refl) as O. cbn [led_after fold_left] in O. destruct H3; cbn [led_step l_sent l_hi TxSpec.op_ok] in *; lia.
Qed.

(* What is known of a stream with this log: [wt]: its bytes, those of the application marked *)
Record sends (E : txenv) (ty : option Z) (log : list tev) (t : txs) (wt : list (Z * bool)) (rest : list TxModel.frame) (open : bool) (j : nat) : Prop := {
  sd_offers : offered_from (untag wt) log;
  sd_led : 0 <= l_acked (tled log) <= l_sent (tled log) /\ l_sent (tled log) <= l_hi (tled log) <= zlen wt;
  sd_type : forall n, ty = Some n -> exists w', untag wt = n :: w';
  sd_frames : ty = None \/ ty = Some 0 -> carries E ty log (untag wt) rest open j;
  sd_made : ty = None \/ ty = Some 0 -> length (sections (submitted log)) = (t_nenc t + length (sections rest))%nat;
  sd_app : app_data wt = read_bytes E j;
  sd_acks : treported log = app_bytes (upto (l_acked (tled log)) wt);
  sd_fin : ty = None \/ ty = Some 0 -> forall pre vs post, log = pre ++ TOffer vs true :: post -> Forall (fun e => ~ adds_frames e) post ->
    from (l_sent (tled pre)) (untag wt) = concat vs /\ rest = [] /\ open = false /\ ended E log j;
  sd_held : exists base, 0 <= base <= l_acked (tled log) /\ held t = Some (from base (untag wt));
  sd_freed : l_acked (tled log) = zlen wt -> t_chunks t = [] /\ held t = Some [];
  sd_next : forall n vs fin, n <> O -> writev t n = Ok (vs, fin) -> exists more, from (l_sent (tled log)) (untag wt) = concat vs ++ more /\
    (length vs <= n)%nat /\ (more <> [] -> length vs = n) /\ Forall (fun v => v <> []) vs /\ (ty = None \/ ty = Some 0 -> (fin = true <-> more = [] /\ rest = [] /\ open = false /\ ended E log j)) }.
Lemma untag_from n (w : list (Z * bool)) : untag (from n w) = from n (untag w).
Proof. unfold untag, from. generalize (Z.to_nat n) as k. induction w as [|x w IH]; intros [|k]; cbn; auto. Qed.
Lemma plain_fits ty o : known_ty ty -> (ty = None \/ ty = Some 0) -> fits ty o = true -> raw o = false.
Proof. intros _ [-> | ->] H; cbn in H; destruct (raw o); auto; discriminate. Qed.
Lemma shaped_tail ty tr x tr2 : (ty = None \/ ty = Some 0) -> shaped ty (tr ++ x :: tr2) -> Forall (fun y => raw (fst y) = false) tr2.
Proof.
  intros T S. assert (Forall (fun y => fits ty (fst y) = true) tr2) as F.
  { destruct T as [-> | ->]; cbn [shaped] in S.
    - apply Forall_app in S as [_ S]. inversion S; auto.
    - destruct S as (tr' & E & F). destruct tr as [|y tr]; [injection E as _ ->; auto|]. injection E as _ <-. apply Forall_app in F as [_ F]. inversion F; auto. }
  apply (plain_raw ty); auto.
Qed.
Lemma no_adds_trace tr : Forall (fun y : op * res => raw (fst y) = false) tr -> Forall (fun e => ~ adds_frames e) (tvis tr) -> Forall (fun y => snd y <> RAbort) tr -> (forall frs fin r, In (OSubmit frs fin, r) tr -> r = RNone) -> Forall (fun y => adds (fst y) = false) tr.
Proof.
  induction tr as [|[o r] tr IH]; intros F1 F2 F3 F4; [constructor|]. inversion F1; subst. inversion F3; subst. change (tvis ((o, r) :: tr)) with (tv1 (o, r) ++ tvis tr) in F2. apply Forall_app in F2 as [G1 G2].
  constructor; [|apply IH; auto; intros; eapply F4; right; eauto]. cbn [fst] in *. destruct o; auto; try discriminate. rewrite (F4 frs fin r (or_introl eq_refl)) in G1. cbn in G1. inversion G1 as [|? ? G]; subst. exfalso. apply G. repeat eexists.
Qed.
Lemma calls_submit E tr : forall L a b, calls E L a tr b -> forall frs fin r, In (OSubmit frs fin, r) tr -> r = RNone.
Proof. induction tr as [|[o r] tr IH]; intros L a b C frs fin r' I; [destruct I|]. inversion C as [|? ? ? ? b0 ? ? H3 H5]; subst. destruct I as [I|I]; [|eapply IH; eauto]. injection I as -> ->. inversion H3; auto. Qed.
Lemma calls_all_ok E L a tr b : calls E L a tr b -> Forall (fun y => snd y <> RAbort) tr.
Proof. apply calls_no_abort. Qed.
Theorem good_sends E ty t log : env_ok E -> known_ty ty -> txgood E ty t log -> exists wt rest open j, sends E ty log t wt rest open j.
Proof.
  intros HE KT (tr & a & C & R & V & LW & SH).
  assert (ledger_of tr = tled log) as LG by (rewrite ledger_tvis, V; reflexivity).
  assert (exists rest open, (ty = None \/ ty = Some 0) -> carries E ty log (untag (a_wire a)) rest open (a_rd a) /\ (a_pend a = [] <-> rest = [] /\ open = false) /\ sections rest = sections (a_pend a)) as (rest & open & CR).
  { assert ((ty = None \/ ty = Some 0) \/ ~ (ty = None \/ ty = Some 0)) as [T|T] by (destruct KT as [-> |[-> |[-> | ->]]]; auto; right; intros [X|X]; discriminate).
    - destruct (shaped_spell E ty tr a T C SH) as (l & open & fs & w1 & SY & U & F & SB & O). exists (rest_of open (a_pend a)), open. intros _. rewrite <- V. split; [exists l, (a_enc a), fs, w1; auto|].
      destruct open; cbn [rest_of]; [|tauto]. destruct (O eq_refl) as (p & ->). cbn. split; [|reflexivity]. split; [discriminate|]. intros [_ X]; discriminate.
    - exists [], false. tauto. }
  assert (a_end a = true <-> ended E log (a_rd a)) as EN.
  { destruct (calls_end E led0 a0 tr a C) as [X _]. rewrite X, V. cbn [a_end a_rd a0]. unfold ended. split.
    - intros [Y|[Y|(i & B & Y)]]; [discriminate|auto|]. right. exists i. split; [lia|auto].
    - intros [Y|(i & B & Y)]; [auto|]. right; right. exists i. split; [lia|auto]. }
  pose proof (rel_acked _ _ _ R) as RA. rewrite LG in RA.
  pose proof (lawful_sent E tr led0 a0 a C) as LS. assert (l_sent (tled log) <= l_hi (tled log)) as SH1 by (rewrite <- LG; apply LS; [exact LW|cbn; lia]).
  assert (l_hi (tled log) <= zlen (a_wire a)) as HW by (rewrite <- LG; apply R).
  exists (a_wire a), rest, open, (a_rd a). constructor.
  - intros pre vs fin post EL. destruct (tvis_split tr pre (TOffer vs fin) post) as (tr1 & x & tr2 & -> & V1 & V2 & _); [congruence|]. apply tv1_offer in V2 as (n & es & ->).
    rewrite <- V1, <- ledger_tvis. eapply calls_offers; [exact C|]. exists n, es, tr2. reflexivity.
  - lia.
  - intros n ->. eapply shaped_first; eauto.
  - intros T. apply CR. exact T.
  - intros T. destruct (CR T) as (_ & _ & ->). destruct (calls_GI _ _ _ _ _ C [] g0) as (ns & S & (A & _) & N); [exists []; repeat split; intros [|k] e Q; discriminate|].
    cbn [app] in S. rewrite V in S. rewrite S, app_length, A, (ti_enc _ _ _ (r_tied _ _ _ R)), N. reflexivity.
  - eapply calls_read; eauto.
  - rewrite <- V, <- (reported_tvis E tr _ _ _ C), <- ledger_tvis. pose proof (calls_reported E tr led0 a0 a C) as Q. cbn [l_acked led0 l_sent l_hi a0 a_wire] in Q. change (app_bytes (upto 0 (@nil (Z * bool)))) with 0 in Q. rewrite Z.add_0_r in Q. apply Q; try lia; [cbn; lia|exact LW|cbn; lia].
  - intros T pre vs post EL FP. destruct (tvis_split tr pre (TOffer vs true) post) as (tr1 & x & tr2 & -> & V1 & V2 & V3); [congruence|]. apply tv1_offer in V2 as (n & es & ->).
    destruct (calls_fin E _ _ C tr1 n vs es tr2 eq_refl) as (W & P & EE).
    + apply no_adds_trace; [eapply shaped_tail; eauto|rewrite V3; exact FP| |].
      * apply calls_no_abort in C. apply Forall_app in C as [_ C]. inversion C; auto.
      * intros frs fin r I. eapply (calls_submit E _ _ _ _ C frs fin). apply in_app_iff. right; right. exact I.
    + rewrite <- V1, <- ledger_tvis. split; [exact W|]. apply EN in EE. apply (CR T) in P as [-> ->]. auto.
  - rewrite <- LG. eapply rel_held; eauto.
  - rewrite <- LG. eapply rel_released; eauto.
  - intros n vs fin N WV. set (t1 := set_rdblk t true). destruct a as [p w en bl k j]. set (a1 := mk_a p w en true k j).
    assert (rel (ledger_of tr) t1 a1) as R1 by (destruct R as [[T1 T2 T3 T4 T5 T6 T7] A H]; constructor; auto; constructor; auto; apply core_set_rdblk; exact T1).
    pose proof (step_ok E (ledger_of tr) t1 a1 (OWrite n) HE R1 N) as S. cbn [texec] in S.
    assert (tx_write E t1 n = let! (vs, fin) := writev t n in Ok (t1, [], vs, fin)) as TW by reflexivity. rewrite TW, WV in S. clear TW. cbn [obind] in S. cbv beta iota zeta in S. destruct S as (b & Cb & Rb). inversion Cb; subst. cbn [a_blk a1] in H3. destruct H3 as [_ ->].
    cbn [a_wire a_pend a_end a_blk a_rd a1] in *. exists more. rewrite <- LG, <- untag_from. split; [auto|]. split; [auto|]. split; [auto|]. split; [auto|]. intros T. destruct (CR T) as (_ & CR2 & _). rewrite H10. rewrite EN, CR2. tauto.
Qed.

Section Hist.
Context (K : kenv) (EF : env_fine K).
Theorem hist_sends h c id s : history K h c -> sending_ok K h -> find_stream c id = Some s ->
  exists wt rest open j, sends (ke_tx K id) (stype id h) (slog K id h) (st_t s) wt rest open j.
Proof.
  intros H S F. apply good_sends; [apply EF| |eapply hist_sending; eauto]. destruct (hist_T K EF h c H S) as (gf & _ & _ & KS & _). rewrite <- (KS _ _ F). apply kind_known.
Qed.
Lemma hist_offer h n rv evs c i vs fin : history K (h ++ [mk_call (OWritev n) rv evs c]) c -> sending_ok K (h ++ [mk_call (OWritev n) rv evs c]) -> In (KOffer i vs fin) evs ->
  n <> O /\ exists s, find_stream c i = Some s /\ writev (st_t s) n = Ok (vs, fin) /\ (vs <> [] \/ fin = true) /\ evs = [KOffer i vs fin] /\ rv = zlen vs.
Proof.
  intros H S I. destruct (history_split K _ _ H h (mk_call (OWritev n) rv evs c) [] eq_refl) as (c0 & H0 & _ & ST). cbn [ConnHist.c_op ConnHist.c_rv c_post c_evs] in ST. cbn [kstep] in ST. unfold writev_call in ST.
  destruct (hist_T K EF h c0 H0 (sending_prefix K _ _ S)) as (gf & T & _ & KS & NK). pose proof (S h _ [] eq_refl) as CO. rewrite (after_hist K _ _ H0) in CO. destruct CO as [C1 C2].
  assert (KB K c0) as KBc by (pose proof (hist_DI K _ _ H0) as D; split; intros q s Q F; [eapply DI_enc|eapply DI_dec]; eauto).
  destruct (writev_stream K c0 n) as [[c1 [[[i' vs'] fin']|]]| |] eqn:W; try discriminate; injection ST as -> <- <-; [|destruct I].
  assert (n <> O) as N by (intros ->; cbn in W; discriminate).
  assert (forall q, ConnOffer.bound c0 q -> client_bidi q = false) as BQ.
  { intros q Q. destruct (wf_tx _ _ (h_wf _ _ _ H0) q Q) as (LU & _). destruct (client_bidi q) eqn:CB; [|reflexivity]. exfalso. eapply ConnWf.local_not_bidi; eauto. }
  destruct (W_writev K (proj1 EF) c0 _ gf n _ _ N T KBc (hist_NHL K _ _ H0 (sending_prefix K _ _ S)) BQ (hist_dbuf K EF _ _ H0) C1 C2 W) as (_ & _ & _ & _ & (s & F & WV & NE) & _).
  destruct I as [[= -> -> ->]|[]]. split; [exact N|]. exists s. auto.
Qed.
(* every call of the life of a stream *)
Lemma life_sub id h x : In x (life id h) -> In x h.
Proof. induction h as [|y h IH] using rev_ind; [intros []|]. rewrite life_snoc. destruct (is_open _ _); [|intros []]. intros I. apply in_app_iff in I as [I|I]; apply in_app_iff; auto. Qed.
Lemma life_call h c id x : history K h c -> sending_ok K h -> In x (life id h) -> exists pre c0, history K pre c0 /\ kstep K c0 (ConnHist.c_op x) = KOk (c_post x) (ConnHist.c_rv x) (c_evs x) /\ call_ok K pre c0 (ConnHist.c_op x).
Proof.
  intros H S I. apply life_sub, in_split in I as (a & b & ->). destruct (history_split K _ _ H a x b eq_refl) as (c0 & H0 & _ & ST). exists a, c0. split; [exact H0|]. split; [exact ST|]. pose proof (S a x b eq_refl) as CO. rewrite (after_hist K _ _ H0) in CO. exact CO.
Qed.
Lemma stype_local h c id n : history K h c -> sending_ok K h -> stype id h = Some n -> local_uni K id = true /\ known_ty (Some n) /\ exists s, find_stream c id = Some s.
Proof.
  intros H S T. destruct (hist_T K EF h c H S) as (gf & _ & _ & KS & _). destruct (find_stream c id) as [s|] eqn:F.
  - pose proof (KS _ _ F) as KD. rewrite T in KD. split; [|split; [rewrite <- KD; apply kind_known|eauto]]. unfold kind in KD. destruct (local_uni K id); [reflexivity|discriminate].
  - unfold stype in T. rewrite (life_closed K h c id H F) in T. discriminate.
Qed.
Lemma local_not_bidi id : local_uni K id = true -> client_bidi id = false.
Proof. unfold local_uni, client_bidi, server_uni, client_uni. destruct (ke_server K); intros; lia. Qed.
Definition ctl_only (log : list tev) : Prop := forall frs fin, In (TSubmit frs fin) log -> fin = false /\ Forall ctl_frame frs.
Lemma offers_no_submit id evs frs fin : ~ In (TSubmit frs fin) (offers_of id evs).
Proof.
  unfold offers_of. intros I. apply in_concat in I as (l & I1 & I2). apply in_map_iff in I1 as (e & <- & _). destruct e; try destruct I2. destruct (_ =? _); [|destruct I2]. destruct I2 as [I2|[]]. discriminate.
Qed.
Lemma log_ctl h c id n : history K h c -> sending_ok K h -> stype id h = Some n -> ctl_only (slog K id h).
Proof.
  intros H S T frs fin I. destruct (stype_local h c id n H S T) as (L & _ & _). pose proof (local_not_bidi id L) as NB. unfold slog in I. rewrite T in I. apply in_concat in I as (l & I1 & I2). apply in_map_iff in I1 as (x & <- & I1).
  destruct (life_call h c id x H S I1) as (pre & c0 & H0 & ST & CO). unfold tlog1 in I2. destruct x as [o rv evs c1]. cbn [ConnHist.c_op ConnHist.c_rv c_post c_evs] in *.
  cbv beta zeta iota in I2. destruct o; try (exfalso; eapply offers_no_submit; exact I2); (destruct (rv =? 0); cbn [negb] in I2; [|destruct I2]); try (destruct I2; fail).
  all: try (destruct (Z.eqb_spec id0 id) as [->|]; [|destruct I2]).
  all: try match type of I2 with context [is_ctl ?b] => destruct (is_ctl b); [|destruct I2] end.
  all: destruct I2 as [I2|[]]; try discriminate I2; injection I2 as <- <-.
  all: try (exfalso; destruct CO as [_ CO]; congruence).
  all: try (split; [reflexivity|repeat constructor]; fail).
  exfalso. cbn [kstep] in ST. unfold submit_request in ST. rewrite NB, !andb_false_r in ST. cbn [negb] in ST. rewrite orb_true_r in ST. discriminate.
Qed.
Lemma ctl_submitted log : ctl_only log -> Forall ctl_frame (submitted log) /\ ~ fin_sub log.
Proof.
  intros C. split.
  - unfold submitted. apply Forall_concat. rewrite Forall_map. apply Forall_forall. intros e I. destruct e; auto. eapply C; eauto.
  - intros (frs & I). destruct (C _ _ I). discriminate.
Qed.
Lemma ctl_never E ty t log : known_ty ty -> ty <> None -> ctl_only log -> txgood E ty t log -> forall pre vs fin post, log = pre ++ TOffer vs fin :: post -> fin = false.
Proof.
  intros KT NN CO (tr & a & C & R & V & LW & SH) pre vs fin post EL. destruct (tvis_split tr pre (TOffer vs fin) post) as (tr1 & x & tr2 & -> & V1 & V2 & V3); [congruence|]. apply tv1_offer in V2 as (n & es & ->).
  destruct (calls_split E tr1 _ _ _ _ _ _ C) as (b & b' & C1 & CW & _).
  assert (calls E led0 a0 (tr1 ++ [(OWrite n, ROffer vs fin es)]) b') as C2 by (eapply calls_snoc; eauto).
  assert (a_end b' = false) as EN.
  { destruct (a_end b') eqn:EE; [exfalso|reflexivity]. apply (proj1 (calls_end E _ _ _ _ C2)) in EE. cbn [a_end a0] in EE. destruct EE as [EE|[EE|(i & B & _)]]; [discriminate| |].
    - rewrite tvis_snoc, V1 in EE. destruct EE as (frs & I). cbn [tv1] in I. apply in_app_iff in I as [I|[I|[]]]; [|discriminate]. assert (In (TSubmit frs true) log) as I' by (rewrite EL; apply in_app_iff; auto). destruct (CO _ _ I'). discriminate.
    - assert (a_rd b' = O) as Z0; [|rewrite Z0 in B; lia].
      assert (shaped ty (tr1 ++ [(OWrite n, ROffer vs fin es)])) as SH1.
      { destruct ty as [m|]; [|congruence]. destruct SH as (tr' & EQ & FT). destruct tr1 as [|y tr1]; [discriminate|]. injection EQ as -> <-. exists (tr1 ++ [(OWrite n, ROffer vs fin es)]). split; [reflexivity|]. apply Forall_app in FT as [FT1 FT2]. inversion FT2; subst. apply Forall_app; split; auto. }
      destruct KT as [-> |[-> |KT]]; [congruence| |].
      + destruct (shaped_spell E (Some 0) _ _ ltac:(auto) C2 SH1) as (l & open & fs & w1 & SY & _ & _ & SB & _). eapply says_ctl; [exact SY|]. assert (Forall ctl_frame (submitted (tvis (tr1 ++ [(OWrite n, ROffer vs fin es)])))) as FC.
        { apply ctl_submitted. rewrite tvis_snoc, V1. intros frs f I. cbn [tv1] in I. apply in_app_iff in I as [I|[I|[]]]; [|discriminate]. apply CO. rewrite EL. apply in_app_iff. auto. }
        rewrite SB in FC. apply Forall_app in FC. apply FC.
      + assert (exists m, ty = Some m /\ (m = 2 \/ m = 3)) as (m & -> & M) by (destruct KT as [-> | ->]; eauto). destruct SH1 as (tr' & EQ & FT). rewrite EQ in C2. inversion C2 as [|? ? ? ? b0 ? ? H3 H5]; subst.
        assert (a_pend b0 = [] /\ a_rd b0 = O) as [P0 R0] by (inversion H3; subst; auto).
        destruct (calls_plain E _ _ _ _ H5) as (_ & _ & X & _); [|exact P0|congruence]. eapply Forall_impl; [|exact FT]. intros y Fy. cbn beta in Fy. destruct M as [-> | ->]; destruct (fst y); cbn in *; auto; discriminate. }
  inversion CW; subst. destruct fin; [|reflexivity]. destruct (proj1 H10 eq_refl) as (_ & _ & X). congruence.
Qed.
Theorem hist_never_fin h c id n : history K h c -> sending_ok K h -> stype id h = Some n -> forall pre vs fin post, slog K id h = pre ++ TOffer vs fin :: post -> fin = false.
Proof.
  intros H S T. destruct (stype_local h c id n H S T) as (_ & KT & s & F). pose proof (hist_sending K EF h c id s H S F) as TG. rewrite T in TG. eapply ctl_never; [| | |exact TG]; [exact KT|discriminate|eapply log_ctl; eauto].
Qed.
(* the control stream *)
Lemma life_head h c id x g : history K h c -> life id h = x :: g -> exists c0, kstep K c0 (ConnHist.c_op x) = KOk (c_post x) (ConnHist.c_rv x) (c_evs x) /\ find_stream c0 id = None /\ is_open (c_post x) id = true.
Proof.
  intros H. revert x g. revert h c H. refine (hist_inv K (fun h c => forall x g, life id h = x :: g -> exists c0, kstep K c0 (ConnHist.c_op x) = KOk (c_post x) (ConnHist.c_rv x) (c_evs x) /\ find_stream c0 id = None /\ is_open (c_post x) id = true) _ _); [discriminate|].
  intros h c o c' rv evs H W O IH ST x g. rewrite life_snoc. cbn [c_post]. destruct (is_open c' id) eqn:OP; [|discriminate]. destruct (life id h) as [|y l] eqn:LF.
  - cbn. intros [= <- <-]. exists c. cbn [ConnHist.c_op ConnHist.c_rv c_post c_evs]. split; [exact ST|]. split; [|exact OP]. destruct (find_stream c id) eqn:F; [|reflexivity]. exfalso. apply (life_open K h c id H); [unfold is_open; rewrite F; reflexivity|exact LF].
  - cbn. intros [= <- <-]. eapply IH; eauto.
Qed.
Lemma find_none_open c id : find_stream c id = None -> is_open c id = false. Proof. unfold is_open. intros ->. reflexivity. Qed.
Theorem hist_ctl_log h c id : history K h c -> sending_ok K h -> stype id h = Some 0 -> submitted (slog K id h) = FSettings (ke_set K) :: concat (map queued (tl (life id h))).
Proof.
  intros H S T. destruct (stype_local h c id 0 H S T) as (L & _ & _). pose proof (local_not_bidi id L) as NB. unfold slog. rewrite T. unfold stype in T. destruct (life id h) as [|x g] eqn:LF; [discriminate|]. cbn [map concat tl].
  destruct (life_head h c id x g H LF) as (c0 & ST & F0 & OP).
  assert (ConnHist.c_op x = OBindControl id) as OX by (unfold opened_as in T; destruct (ConnHist.c_op x); try discriminate; [destruct (Z.eqb_spec id0 id); [congruence|discriminate]|destruct (eid =? id); [discriminate|destruct (did =? id); discriminate]]).
  assert (ConnHist.c_rv x = 0) as RX.
  { rewrite OX in ST. cbn [kstep] in ST. unfold bind_control in ST. destruct (negb _); [discriminate|]. destruct (k_tctl c0).
    - injection ST as E1 _ _. rewrite <- E1, (find_none_open _ _ F0) in OP. discriminate.
    - apply lift_ok in ST as (_ & -> & _). reflexivity. }
  rewrite submitted_app. unfold tlog1 at 1. rewrite OX, RX. cbv beta zeta iota. change (negb (0 =? 0)) with false. cbv iota. rewrite Z.eqb_refl. change (submitted [TSubmit [FSettings (ke_set K)] false]) with [FSettings (ke_set K)]. cbn [app]. f_equal.
  assert (Forall (fun y => In y (life id h)) g) as IG by (rewrite LF; apply Forall_forall; intros; right; auto).
  (* after it was bound, the control stream cannot be bound again: the head of the life is the only such call *)
  assert (forall a y b, g = a ++ y :: b -> ConnHist.c_rv y = 0 -> ConnHist.c_op y <> OBindControl id) as NBD.
  { intros a y b -> RY OY. clear IG.
    assert (forall h c, history K h c -> forall x a y b, life id h = x :: a ++ y :: b -> exists c1 s1, find_stream c1 id = Some s1 /\ kstep K c1 (ConnHist.c_op y) = KOk (c_post y) (ConnHist.c_rv y) (c_evs y)) as MID.
    { clear. refine (hist_inv K (fun h c => forall x a y b, life id h = x :: a ++ y :: b -> exists c1 s1, find_stream c1 id = Some s1 /\ kstep K c1 (ConnHist.c_op y) = KOk (c_post y) (ConnHist.c_rv y) (c_evs y)) _ _); [discriminate|].
      intros h c o c' rv evs H W O IH ST x a y b. rewrite life_snoc. cbn [c_post]. destruct (is_open c' id) eqn:OP; [|discriminate]. destruct b as [|z b _] using rev_ind.
      - rewrite app_comm_cons. intros EQ. apply app_inj_tail in EQ as [EQ <-]. cbn [ConnHist.c_op ConnHist.c_rv c_post c_evs]. destruct (find_stream c id) as [s1|] eqn:F; [eauto|]. rewrite (life_closed K h c id H F) in EQ. discriminate.
      - rewrite app_comm_cons, (app_assoc a [y] (b ++ [z])) || idtac. intros EQ. replace (x :: a ++ y :: b ++ [z]) with ((x :: a ++ y :: b) ++ [z]) in EQ by (cbn; rewrite <- app_assoc; reflexivity). apply app_inj_tail in EQ as [EQ _]. eapply IH; eauto. }
    destruct (MID h c H x a y b LF) as (c1 & s1 & F1 & ST1). rewrite OY, RY in ST1. cbn [kstep] in ST1. unfold bind_control in ST1. destruct (negb _); [discriminate|]. destruct (k_tctl c1); [discriminate|].
    apply lift_ok in ST1 as (ST1 & _ & _). apply obind_ok in ST1 as (c2 & OU & _). apply open_uni_inv in OU as (F2 & _). congruence. }
  clear LF. assert (forall a, (forall y, In y a -> In y g) -> submitted (concat (map (tlog1 K (Some 0) id) a)) = concat (map queued a)) as GO; [|apply GO; auto].
  induction a as [|y a IHa]; intros SUB; [reflexivity|]. cbn [map concat]. rewrite submitted_app, IHa by (intros; apply SUB; right; auto). f_equal.
  assert (In y g) as IY by (apply SUB; left; reflexivity). rewrite Forall_forall in IG. destruct (life_call h c id y H S (IG _ IY)) as (pre & c1 & H1 & ST1 & CO). clear ST. destruct y as [o rv evs c2]. unfold tlog1, queued. cbn [ConnHist.c_op ConnHist.c_rv c_post c_evs] in *.
  destruct (Z.eqb_spec rv 0) as [->|NZ]; cbn [negb].
  - destruct o; try reflexivity; cbn [is_ctl].
    all: try (assert (forall l : list tev, (forall f b, ~ In (TSubmit f b) l) -> submitted l = []) as NS by (induction l as [|e l IHl]; intros NI; [reflexivity|]; change (submitted (e :: l)) with ((match e with TSubmit frs _ => frs | _ => [] end) ++ submitted l); rewrite IHl by (intros f b I; eapply NI; right; eauto); destruct e; try reflexivity; exfalso; eapply NI; left; reflexivity);
      apply NS; intros f b; apply offers_no_submit).
    all: destruct (Z.eqb_spec id0 id) as [->|]; try reflexivity; exfalso.
    all: try (destruct CO as [_ CO]; congruence).
    + apply in_split in IY as (u & v & EQ). eapply NBD; [exact EQ|reflexivity|reflexivity].
    + cbn [kstep] in ST1. unfold submit_request in ST1. rewrite NB, !andb_false_r in ST1. cbn [negb] in ST1. rewrite orb_true_r in ST1. discriminate.
  - destruct o; reflexivity || idtac.
    assert (forall l : list tev, (forall f b, ~ In (TSubmit f b) l) -> submitted l = []) as NS. { induction l as [|e l IHl]; intros NI; [reflexivity|]. change (submitted (e :: l)) with ((match e with TSubmit frs _ => frs | _ => [] end) ++ submitted l). rewrite IHl by (intros f b I; eapply NI; right; eauto). destruct e; try reflexivity. exfalso. eapply NI. left; reflexivity. }
    apply NS. intros f b. apply offers_no_submit.
Qed.
End Hist.
