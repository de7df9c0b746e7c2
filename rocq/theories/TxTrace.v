(* Every lawful history of calls on a stream is a history of TxSpec *)
From Verif Require Import Base BaseLemmas ConvModel ConvSpec ConvProofs TxModel TxSpec TxProofs TxRefine TxFill.

Record rel (L : ledger) (s : txs) (a : ast) : Prop := {
  r_tied : tied s a (l_sent L); r_acked : t_acko s = l_acked L; r_hi : l_hi L <= zlen (a_wire a) }.
Lemma rel0 : rel led0 tx_init a0.
Proof.
  constructor; [|reflexivity|cbn; lia]. constructor; try reflexivity; [|constructor].
  constructor; cbn; try (constructor; fail); try lia; try reflexivity. rewrite mv62; lia.
Qed.
Lemma core_sent s w sent : core s w sent -> 0 <= sent <= zlen w.
Proof. intros []; lia. Qed.

Lemma fill_step E L s a : env_ok E -> rel L s a ->
  match tx_fill E s with
  | Ok (s', es) => exists b, (if a_blk a then es = [] /\ b = a else emits E a es b) /\ rel L s' b /\
      (zlen (a_wire b) = l_sent L -> a_pend b = [] \/ a_blk b = true)
  | Err e => a_blk a = false /\ exists es b, emits E a es b /\ emit_fails E b e
  | Abort => False
  end.
Proof.
  intros HE [T A H]. unfold tx_fill. rewrite (ti_blk _ _ _ T). destruct (a_blk a) eqn:Eb.
  - exists a; repeat split; auto; apply T.
  - pose proof (fill_ok E HE (t_frq s) s a (l_sent L) T (ti_frq _ _ _ T) Eb) as Hf. unfold fill_outq.
    destruct (fill_loop E (t_frq s) s) as [[s' es]|e|]; auto.
    destruct Hf as (b & H1 & H2 & H3 & H4 & H5). exists b; repeat split; auto; try apply H2; [congruence|lia].
Qed.
Lemma nil_or_pos {A} (l : list A) : l = [] \/ 0 < zlen l.
Proof. destruct l; [auto|right; rewrite zlen_cons; pose proof (zlen_nonneg _ l); lia]. Qed.
Lemma step_ok E L s a o : env_ok E -> rel L s a -> op_ok L o ->
  let '(s', r) := texec E s o in exists b, call E L a o r b /\ rel (led_step L o r) s' b.
Proof.
  intros HE R Hop. pose proof R as R0; destruct R as [T A H]. pose proof (ti_core _ _ _ T) as K. pose proof (core_sent _ _ _ K) as Hs.
  pose proof (k_max _ _ _ K) as Hmax.
  destruct a as [p w en bl k j]. cbn [a_wire] in *.
  assert (forall l need, l <> [] -> zlen l <= need -> need < 2 ^ 64 ->
     match shared_add (ensure_chunk s need) l with
     | Ok s' => zlen w + zlen l <= max_varint /\ rel L s' (mk_a p (w ++ tag false l) en bl k j)
     | Err e => e = ERR_STREAM_DATA_OVERFLOW /\ max_varint < zlen w + zlen l
     | Abort => False end) as Hraw.
  { intros l need H1 H2 H3. pose proof (shared_ok s w (l_sent L) need l K H1 H2 H3) as Hx.
    destruct (Z.leb_spec (zlen w + zlen l) max_varint) as [Lx|Lx].
    - destruct Hx as (s' & -> & K1 & (G1 & G2 & G3 & G4 & G5 & G6 & G7)). split; [lia|]. destruct T as [_ T1 T2 T3 T4 T5 T6].
      cbn [a_wire a_pend a_end a_blk a_enc a_rd] in *.
      constructor; [constructor; cbn [a_wire a_pend a_end a_blk a_enc a_rd]; auto; congruence|congruence|].
      cbn [a_wire]; rewrite zlen_app, zlen_tag; pose proof (zlen_nonneg _ l); lia.
    - rewrite Hx; auto. }
  destruct o as [frs fin|l|l|n| |n|off|n|]; cbn [op_ok] in Hop; cbn [texec].
  - exists (mk_a (p ++ frs) w (en || fin) bl k j). split; [apply c_submit|]. cbn [led_step].
    destruct T as [_ T1 T2 T3 T4 T5 T6]; cbn [a_wire a_pend a_end a_blk a_enc a_rd] in *.
    constructor; cbn [a_wire]; auto; [|unfold tx_submit; destruct fin; auto].
    constructor; cbn [a_wire a_pend a_end a_blk a_enc a_rd]; unfold tx_submit.
    + apply core_set_frq; destruct fin; auto; apply core_set_end; auto.
    + destruct fin; cbn; congruence.
    + destruct fin; cbn [set_frq set_end t_end]; [rewrite orb_true_r|rewrite orb_false_r]; auto.
    + destruct fin; cbn; auto.
    + destruct fin; cbn; auto.
    + destruct fin; cbn; auto.
    + apply Forall_app; auto.
  - destruct Hop as (H1 & H2 & H3). pose proof p64. specialize (Hraw l (zlen l) H1 ltac:(lia) ltac:(lia)). unfold write_raw.
    destruct (shared_add (ensure_chunk s (zlen l)) l) as [s'|e|].
    + destruct Hraw as [Lx R]. eexists; split; [apply c_raw; auto|exact R].
    + destruct Hraw as [-> Lx]. eexists; split; [apply c_raw_fail; auto|exact R0].
    + contradiction.
  - destruct Hop as (H2 & H3). pose proof p64. unfold write_ebuf. destruct (Z.ltb_spec MAX_COPY_THRES (zlen l)) as [Lc|Lc].
    + assert (l <> []) as Hn by (apply pos_ne; unfold MAX_COPY_THRES in Lc; lia).
      pose proof (add_plain s w (l_sent L) BPrivate l K ltac:(discriminate) ltac:(left; auto)) as Hx.
      destruct (Z.leb_spec (zlen w + zlen l) max_varint) as [Lx|Lx].
      * destruct Hx as (s' & -> & K1 & (G1 & G2 & G3 & G4 & G5 & G6 & G7)). eexists; split; [apply c_instr; auto|]. cbn [led_step].
        destruct T as [_ T1 T2 T3 T4 T5 T6]; cbn [a_wire a_pend a_end a_blk a_enc a_rd] in *.
        constructor; [constructor; cbn [a_wire a_pend a_end a_blk a_enc a_rd]; auto; congruence|congruence|].
        cbn [a_wire]; rewrite zlen_app, zlen_tag; pose proof (zlen_nonneg _ l); lia.
      * rewrite Hx. eexists; split; [apply c_instr_fail; auto|exact R0].
    + destruct (Z.eqb_spec (zlen l) 0) as [Z0|Z0]; cbn [negb].
      * apply zlen_0 in Z0; subst l. eexists; split; [apply c_instr; rewrite zlen_nil; lia|]. cbn [led_step tag map]. rewrite app_nil_r; exact R0.
      * assert (l <> []) as Hn by (intros ->; apply Z0; reflexivity).
        specialize (Hraw l (zlen l) Hn ltac:(lia) ltac:(lia)). unfold write_raw.
        destruct (shared_add (ensure_chunk s (zlen l)) l) as [s'|e|].
        -- destruct Hraw as [Lx R]. eexists; split; [apply c_instr; auto|exact R].
        -- destruct Hraw as [-> Lx]. eexists; split; [apply c_instr_fail; auto|exact R0].
        -- contradiction.
  - pose proof (fill_step E L s _ HE R0) as Hf. unfold tx_write. destruct (tx_fill E s) as [[s' es]|e|]; cbn [obind].
    + destruct Hf as (b & He & Rb & Hp). pose proof (ti_core _ _ _ (r_tied _ _ _ Rb)) as Kb.
      destruct (writev_ok (t_chunks s') (t_outq s') (t_chunks s') _ n (t_idx s') _ (k_rep _ _ _ Kb) (lookup_self _ (k_nd _ _ _ Kb)) (k_pos _ _ _ Kb) Hop)
        as (vs & mq & Ew & more & U & M & Ln & Lm & Nn).
      unfold writev. destruct n as [|n]; [congruence|]. cbn [Nat.eqb]. rewrite Ew; cbn [obind].
      assert (from (l_sent L - t_ackb s') (from (t_ackb s') (a_wire b)) = from (l_sent L) (a_wire b)) as Ef.
      { destruct Kb. rewrite from_from by lia. f_equal; lia. }
      rewrite Ef in U. pose proof (core_sent _ _ _ Kb) as Hsb.
      assert (zlen (concat vs) + zlen more = zlen (a_wire b) - l_sent L) as Zv.
      { apply (f_equal zlen) in U. rewrite zlen_untag, zlen_from, zlen_app in U by lia. lia. }
      pose proof (ti_frq _ _ _ (r_tied _ _ _ Rb)) as Fb. pose proof (ti_end _ _ _ (r_tied _ _ _ Rb)) as Eb.
      exists b; split.
      * eapply c_write with (more := more); eauto.
        -- rewrite <- Fb, <- Eb. destruct (t_frq s'); [|split; [discriminate|intros (_ & ? & _); discriminate]].
           destruct mq; [|split; [discriminate|intros (Hm & _); apply M in Hm; discriminate]].
           split; [intros ->; tauto|tauto].
        -- intros ->. apply Hp. cbn [concat] in Zv; rewrite zlen_nil in Zv. cbn [length] in Lm.
           destruct more as [|m0 more0]; [rewrite zlen_nil in Zv; lia|]. specialize (Lm ltac:(discriminate)); discriminate.
      * cbn [led_step]. destruct Rb as [Tb Ab Hb]. constructor; cbn [l_sent l_hi l_acked]; auto.
        pose proof (zlen_nonneg _ more). lia.
    + destruct Hf as (Hb & es & b & H1 & H2). eexists; split; [eapply c_write_fail; eauto|exact R0].
    + contradiction.
  - pose proof (fill_step E L s _ HE R0) as Hf. destruct (tx_fill E s) as [[s' es]|e|].
    + destruct Hf as (b & He & Rb & Hp). exists b; split; [apply c_fill; auto|exact Rb].
    + destruct Hf as (Hb & es & b & H1 & H2). eexists; split; [eapply c_fill_fail; eauto|exact R0].
    + contradiction.
  - unfold tx_written. destruct (written_ok s w (l_sent L) n K) as (s' & -> & K1 & (G1 & G2 & G3 & G4 & G5 & G6 & G7)); [lia|lia|].
    eexists; split; [apply c_written|]. cbn [led_step]. destruct T as [_ T1 T2 T3 T4 T5 T6]; cbn [a_wire a_pend a_end a_blk a_enc a_rd] in *.
    constructor; cbn [l_sent l_hi l_acked]; auto; [|congruence]. constructor; cbn [a_wire a_pend a_end a_blk a_enc a_rd]; auto; congruence.
  - unfold tx_update_ack. destruct (Z.ltb_spec off (t_acko s)) as [Lo|Lo].
    + change (ERR_INVALID_ARGUMENT =? ERR_INVALID_ARGUMENT) with true. eexists; split; [apply c_ack_refused; lia|exact R0].
    + destruct (ack_ok w (l_sent L) off Hs Hmax (t_outq s) s eq_refl K ltac:(lia)) as (s' & cs & E1 & K1 & A1 & A2 & A3 & A4 & A5 & A6 & A7 & A8).
      unfold update_ack; rewrite E1. eexists; split; [apply c_ack; auto; try lia|].
      * cbn [a_wire]. rewrite <- A; auto.
      * cbn [led_step]. destruct T as [_ T1 T2 T3 T4 T5 T6]; cbn [a_wire a_pend a_end a_blk a_enc a_rd] in *.
        constructor; cbn [l_sent l_hi l_acked]; auto. constructor; cbn [a_wire a_pend a_end a_blk a_enc a_rd]; auto; congruence.
  - unfold tx_add_ack. destruct (ack_ok w (l_sent L) (t_acko s + n) Hs Hmax (t_outq s) s eq_refl K ltac:(lia)) as (s' & cs & E1 & K1 & A1 & A2 & A3 & A4 & A5 & A6 & A7 & A8).
    unfold update_ack; rewrite E1. eexists; split; [apply c_addack; auto|].
    + cbn [a_wire]. rewrite <- A; auto.
    + cbn [led_step]. destruct T as [_ T1 T2 T3 T4 T5 T6]; cbn [a_wire a_pend a_end a_blk a_enc a_rd] in *.
      constructor; cbn [l_sent l_hi l_acked]; auto; [|lia]. constructor; cbn [a_wire a_pend a_end a_blk a_enc a_rd]; auto; congruence.
  - eexists; split; [apply c_resume|]. cbn [led_step]. destruct T as [_ T1 T2 T3 T4 T5 T6]; cbn [a_wire a_pend a_end a_blk a_enc a_rd] in *.
    constructor; auto. constructor; cbn [a_wire a_pend a_end a_blk a_enc a_rd]; auto. apply core_set_rdblk; auto.
Qed.

Definition led_after (L : ledger) (tr : list (op * res)) : ledger := fold_left (fun L x => led_step L (fst x) (snd x)) tr L.
Definition lawful_from (L : ledger) (tr : list (op * res)) : Prop :=
  forall pre o r post, tr = pre ++ (o, r) :: post -> op_ok (led_after L pre) o.
Lemma lawful_cons L o r tr : lawful_from L ((o, r) :: tr) -> op_ok L o /\ lawful_from (led_step L o r) tr.
Proof.
  intros H; split; [apply (H [] o r tr); reflexivity|]. intros pre o1 r1 post E. apply (H ((o, r) :: pre) o1 r1 post). cbn [app]; congruence.
Qed.
Lemma run_ok E : env_ok E -> forall ops L s a, rel L s a -> lawful_from L (fst (trun E s ops)) ->
  exists b, calls E L a (fst (trun E s ops)) b /\ rel (led_after L (fst (trun E s ops))) (snd (trun E s ops)) b.
Proof.
  intros HE ops; induction ops as [|o ops IH]; intros L s a R Hl; cbn [trun] in *.
  - exists a; split; [constructor|exact R].
  - pose proof (step_ok E L s a o HE R) as Hs. destruct (texec E s o) as [s1 r] eqn:Ex. destruct (ends r) eqn:Er.
    + cbn [fst snd] in *. apply lawful_cons in Hl as [Ho _]. destruct (Hs Ho) as (b & C & R1). exists b; split; [econstructor; eauto; constructor|exact R1].
    + destruct (trun E s1 ops) as [tr s2] eqn:Et; cbn [fst snd] in *. apply lawful_cons in Hl as [Ho Hl]. destruct (Hs Ho) as (b & C & R1).
      specialize (IH (led_step L o r) s1 b R1). rewrite Et in IH; cbn [fst snd] in IH. destruct (IH Hl) as (c & C2 & R2).
      exists c; split; [econstructor; eauto|exact R2].
Qed.
Lemma refines E ops : env_ok E -> lawful (fst (trun E tx_init ops)) ->
  exists b, calls E led0 a0 (fst (trun E tx_init ops)) b /\ rel (ledger_of (fst (trun E tx_init ops))) (snd (trun E tx_init ops)) b.
Proof. intros HE Hl. exact (run_ok E HE ops led0 tx_init a0 rel0 Hl). Qed.

(* ---- consequences, about the calls alone ---- *)
Lemma prefix_refl {A} (a : list A) : exists x, a = a ++ x. Proof. exists []; rewrite app_nil_r; auto. Qed.
Lemma emit_prefix E a es b : emit E a es b -> exists x, a_wire b = a_wire a ++ x.
Proof. destruct 1; cbn [a_wire]; eauto using prefix_refl. Qed.
Lemma emits_prefix E a es b : emits E a es b -> exists x, a_wire b = a_wire a ++ x.
Proof. induction 1 as [|a e b es c H1 H2 H3 (y & IH)]; [apply prefix_refl|]. apply emit_prefix in H1 as [x H1]. rewrite IH, H1, <- app_assoc; eauto. Qed.
Lemma call_prefix E L a o r b : call E L a o r b -> exists x, a_wire b = a_wire a ++ x.
Proof.
  destruct 1; cbn [a_wire]; eauto using prefix_refl.
  - destruct (a_blk a); [destruct H as [_ ->]; apply prefix_refl|eapply emits_prefix; eauto].
  - destruct (a_blk a); [destruct H as [_ ->]; apply prefix_refl|eapply emits_prefix; eauto].
Qed.
Lemma calls_prefix E L a tr b : calls E L a tr b -> exists x, a_wire b = a_wire a ++ x.
Proof. induction 1 as [|L a o r b tr c H1 H2 (y & IH)]; [apply prefix_refl|]. apply call_prefix in H1 as [x H1]. rewrite IH, H1, <- app_assoc; eauto. Qed.
Lemma calls_split E pre : forall L a o r post c, calls E L a (pre ++ (o, r) :: post) c ->
  exists b b', calls E L a pre b /\ call E (led_after L pre) b o r b' /\ calls E (led_after L (pre ++ [(o, r)])) b' post c.
Proof.
  induction pre as [|[o1 r1] pre IH]; cbn [app]; intros L a o r post c H; inversion H; subst.
  - do 2 eexists; split; [constructor|]. cbn [led_after fold_left fst snd app]. eauto.
  - destruct (IH _ _ _ _ _ _ H7) as (b1 & b2 & A & B & C). exists b1, b2; split; [econstructor; eauto|]. cbn [led_after fold_left fst snd app]. auto.
Qed.
Lemma calls_offers E tr c : calls E led0 a0 tr c -> forall pre vs fin, is_offer tr pre vs fin ->
  upto (zlen (concat vs)) (from (l_sent (ledger_of pre)) (untag (a_wire c))) = concat vs.
Proof.
  intros H pre vs fin (n & es & post & ->). apply calls_split in H as (b & b' & _ & Hc & Hp).
  apply calls_prefix in Hp as [x Hx]. rewrite Hx. inversion Hc; subst.
  match goal with U : untag (from _ _) = concat vs ++ more |- _ => rename U into HU end.
  change (led_after led0 pre) with (ledger_of pre) in *. set (m := l_sent (ledger_of pre)) in *.
  assert (untag (from m (a_wire b')) = from m (untag (a_wire b'))) as Hu by (unfold untag, from; rewrite skipn_map; auto). rewrite Hu in HU.
  rewrite untag_app. unfold from in *. rewrite skipn_app, HU. rewrite <- app_assoc. unfold upto. rewrite firstn_app.
  replace (Z.to_nat (zlen (concat vs)) - length (concat vs))%nat with 0%nat by (unfold zlen; lia).
  rewrite firstn_all2 by (unfold zlen; lia). cbn [firstn]. apply app_nil_r.
Qed.
Lemma app_bytes_prefix n w x : n <= zlen w -> app_bytes (upto n (w ++ x)) = app_bytes (upto n w).
Proof. intros; rewrite upto_app_l; auto. Qed.
Lemma calls_app_inv E tr1 : forall L a tr2 c, calls E L a (tr1 ++ tr2) c -> exists b, calls E L a tr1 b /\ calls E (led_after L tr1) b tr2 c.
Proof.
  induction tr1 as [|[o r] tr1 IH]; cbn [app]; intros L a tr2 c H; [exists a; split; [constructor|exact H]|].
  inversion H; subst. destruct (IH _ _ _ _ H7) as (b1 & A & B). exists b1; split; [econstructor; eauto|exact B].
Qed.
Lemma app_bytes_upto_prefix w x n : 0 <= n <= zlen w -> app_bytes (upto n (w ++ x)) = app_bytes (upto n w).
Proof. intros; apply app_bytes_prefix; lia. Qed.
Lemma trun_app E ops1 : forall s ops2, exists tr2, fst (trun E s (ops1 ++ ops2)) = fst (trun E s ops1) ++ tr2.
Proof.
  induction ops1 as [|o ops1 IH]; intros s ops2; cbn [app trun].
  - eexists; reflexivity.
  - destruct (texec E s o) as [s1 r]. destruct (ends r); [exists []; rewrite app_nil_r; auto|].
    destruct (IH s1 ops2) as [tr2 H]. destruct (trun E s1 (ops1 ++ ops2)), (trun E s1 ops1); cbn [fst] in *. exists tr2; rewrite H; reflexivity.
Qed.
Lemma call_reported E L a o r b : call E L a o r b -> 0 <= l_acked L <= zlen (a_wire a) ->
  reported [(o, r)] + app_bytes (upto (l_acked L) (a_wire a)) = app_bytes (upto (l_acked (led_step L o r)) (a_wire b)).
Proof.
  intros H Ha. pose proof (call_prefix _ _ _ _ _ _ H) as [x Hx].
  assert (app_bytes (upto (l_acked L) (a_wire b)) = app_bytes (upto (l_acked L) (a_wire a))) as Hb by (rewrite Hx; apply app_bytes_upto_prefix; auto).
  destruct H; cbn [reported fold_right snd led_step l_acked a_wire] in *; lia.
Qed.
Lemma reported_cons o r tr : reported ((o, r) :: tr) = reported [(o, r)] + reported tr.
Proof. unfold reported; cbn [fold_right snd]. destruct r; lia. Qed.
Lemma read_bytes_S E n : read_bytes E (S n) = read_bytes E n ++ match te_rd E n with RdData vecs _ _ => concat vecs | RdErr _ => [] end.
Proof. unfold read_bytes. rewrite seq_S, map_app, concat_app; cbn [map concat Nat.add]. rewrite app_nil_r; auto. Qed.
Lemma app_data_app x y : app_data (x ++ y) = app_data x ++ app_data y.
Proof. unfold app_data; rewrite filter_app; apply untag_app. Qed.
Lemma app_data_false l : app_data (tag false l) = [].
Proof. unfold app_data; induction l; cbn; auto. Qed.
Lemma app_data_true l : app_data (tag true l) = l.
Proof. unfold app_data; induction l as [|z l IH]; cbn [tag map filter snd untag fst]; auto. unfold tag, untag in IH; rewrite IH; auto. Qed.
Lemma emit_read E a es b : emit E a es b -> app_data (a_wire a) = read_bytes E (a_rd a) -> app_data (a_wire b) = read_bytes E (a_rd b).
Proof.
  destruct 1; cbn [a_wire a_rd]; intros Hi; rewrite ?app_data_app, ?app_data_false, ?app_data_true, ?app_nil_r; auto;
    rewrite read_bytes_S, H; cbn [app]; rewrite ?H0, ?app_nil_r, Hi; auto.
Qed.
Lemma emits_read E a es b : emits E a es b -> app_data (a_wire a) = read_bytes E (a_rd a) -> app_data (a_wire b) = read_bytes E (a_rd b).
Proof. induction 1; eauto using emit_read. Qed.
Lemma call_read E L a o r b : call E L a o r b -> app_data (a_wire a) = read_bytes E (a_rd a) -> app_data (a_wire b) = read_bytes E (a_rd b).
Proof.
  destruct 1; cbn [a_wire a_rd]; intros Hi; rewrite ?app_data_app, ?app_data_false, ?app_nil_r; auto;
    match goal with X : (if a_blk a then _ else _) |- _ => destruct (a_blk a); [destruct X as [_ ->]; auto|eapply emits_read; eauto] end.
Qed.
Lemma calls_read E L a tr b : calls E L a tr b -> app_data (a_wire a) = read_bytes E (a_rd a) -> app_data (a_wire b) = read_bytes E (a_rd b).
Proof. induction 1; eauto using call_read. Qed.

Lemma rel_acked L s a : rel L s a -> 0 <= l_acked L <= l_sent L /\ l_sent L <= zlen (a_wire a).
Proof. intros [T A _]. destruct (ti_core _ _ _ T). lia. Qed.
Lemma run_reported E : env_ok E -> forall ops L s a, rel L s a -> lawful_from L (fst (trun E s ops)) ->
  exists b, calls E L a (fst (trun E s ops)) b /\ rel (led_after L (fst (trun E s ops))) (snd (trun E s ops)) b /\
    reported (fst (trun E s ops)) + app_bytes (upto (l_acked L) (a_wire a)) =
    app_bytes (upto (l_acked (led_after L (fst (trun E s ops)))) (a_wire b)).
Proof.
  intros HE ops; induction ops as [|o ops IH]; intros L s a R Hl; cbn [trun] in *.
  - exists a; split; [constructor|split; [exact R|reflexivity]].
  - pose proof (step_ok E L s a o HE R) as Hs. pose proof (rel_acked _ _ _ R) as Hk. destruct (texec E s o) as [s1 r] eqn:Ex. destruct (ends r) eqn:Er.
    + cbn [fst snd] in *. apply lawful_cons in Hl as [Ho _]. destruct (Hs Ho) as (b & C & R1). exists b; split; [econstructor; eauto; constructor|split; [exact R1|]].
      cbn [led_after fold_left fst snd]. eapply call_reported; eauto; lia.
    + destruct (trun E s1 ops) as [tr s2] eqn:Et; cbn [fst snd] in *. apply lawful_cons in Hl as [Ho Hl]. destruct (Hs Ho) as (b & C & R1).
      specialize (IH (led_step L o r) s1 b R1). rewrite Et in IH; cbn [fst snd] in IH. destruct (IH Hl) as (c & C2 & R2 & S2).
      exists c; split; [econstructor; eauto|split; [exact R2|]]. rewrite reported_cons.
      change (led_after L ((o, r) :: tr)) with (led_after (led_step L o r) tr). rewrite <- S2. pose proof (call_reported _ _ _ _ _ _ C ltac:(lia)). lia.
Qed.
Lemma held_rep cs0 q : forall cs o, rep cs q o -> lookup cs0 cs ->
  fold_right (fun t acc => match b_memory cs0 t, acc with Some m, Some l => Some (sub m (b_begin t) (b_last t) ++ l) | _, _ => None end) (Some []) q = Some (untag o).
Proof.
  induction q as [|t q IH]; intros cs o H Hl; cbn [fold_right]; [inversion H; reflexivity|].
  destruct (rep_first cs0 _ _ _ _ H Hl) as (m & cs' & o' & tg & Em & Hb & Hm & Hfl & -> & Hr & Hl').
  rewrite Em, (IH _ _ Hr Hl'), untag_app, untag_tag; auto.
Qed.
Lemma rel_held L s a : rel L s a -> exists base, 0 <= base <= l_acked L /\ held s = Some (from base (untag (a_wire a))).
Proof.
  intros [T A _]. pose proof (ti_core _ _ _ T) as K; destruct K. exists (t_ackb s); split; [lia|]. unfold held.
  rewrite (held_rep _ _ _ _ k_rep (lookup_self _ k_nd)). unfold untag, from; rewrite skipn_map; auto.
Qed.
Lemma rep_empty cs q o : rep cs q o -> o = [] -> cs = [] /\ Forall (fun t => flen t = 0) q.
Proof.
  induction 1; intros Ho; auto; apply app_eq_nil in Ho as [Ho1 Ho2]; apply (f_equal zlen) in Ho1; rewrite zlen_tag, ?zlen_nil in Ho1.
  - destruct (IHrep Ho2); split; auto. constructor; auto; unfold flen; lia.
  - apply zlen_0 in Ho1; congruence.
  - rewrite zlen_sub in Ho1 by lia; lia.
  - rewrite zlen_sub in Ho1 by lia; lia.
Qed.
Lemma rel_released L s a : rel L s a -> l_acked L = zlen (a_wire a) -> t_chunks s = [] /\ held s = Some [].
Proof.
  intros [T A _] Ha. pose proof (ti_core _ _ _ T) as K; destruct K. pose proof (rep_len _ _ _ k_rep) as Tq. rewrite zlen_from in Tq by lia.
  assert (t_ackb s = zlen (a_wire a)) as Hb.
  { pose proof (rep_flen _ _ _ k_rep) as Hf. destruct (t_outq s) as [|t q]; [cbn [total] in Tq; lia|].
    inversion Hf as [|? ? [F0 _] Ft]; subst. cbn [total] in Tq.
    assert (0 <= total q) by (clear - Ft; induction Ft as [|x l [Hx _] _ IH]; cbn [total]; lia). lia. }
  assert (from (t_ackb s) (a_wire a) = []) as Hn by (apply from_all; lia).
  destruct (rep_empty _ _ _ k_rep Hn) as [Hc _]. split; [exact Hc|]. unfold held.
  rewrite (held_rep _ _ _ _ k_rep (lookup_self _ k_nd)), Hn; reflexivity.
Qed.
(* the end *)
Lemma emits_done E a es b : emits E a es b -> a_pend a = [] -> b = a.
Proof. destruct 1 as [|a e b es c H]; auto. intros Hp; destruct H; discriminate. Qed.
Lemma call_done E L a o r b : call E L a o r b -> a_pend a = [] -> adds o = false -> a_pend b = [] /\ a_wire b = a_wire a /\ a_end b = a_end a.
Proof.
  destruct 1; cbn [adds a_pend a_wire a_end]; intros Hp Ha; auto; try discriminate;
    match goal with X : (if a_blk a then _ else _) |- _ => destruct (a_blk a); [destruct X as [_ ->]; auto|apply emits_done in X; subst; auto] end.
Qed.
Lemma calls_done E L a tr b : calls E L a tr b -> a_pend a = [] -> Forall (fun x => adds (fst x) = false) tr -> a_wire b = a_wire a /\ a_pend b = [] /\ a_end b = a_end a.
Proof.
  induction 1 as [|L a o r b tr c H1 H2 IH]; intros Hp Hf; auto. inversion Hf as [|? ? Ho Hf']; subst.
  destruct (call_done _ _ _ _ _ _ H1 Hp Ho) as (A & B & C). destruct (IH A Hf') as (D & F & G). repeat split; congruence.
Qed.
Lemma calls_no_abort E L a tr b : calls E L a tr b -> Forall (fun x => snd x <> RAbort) tr.
Proof. induction 1 as [|L a o r b tr c H1 H2 IH]; constructor; auto. destruct H1; discriminate. Qed.
Lemma calls_fin E tr c : calls E led0 a0 tr c -> forall pre n vs es post,
  tr = pre ++ (OWrite n, ROffer vs true es) :: post -> Forall (fun x => adds (fst x) = false) post ->
  from (l_sent (ledger_of pre)) (untag (a_wire c)) = concat vs /\ a_pend c = [] /\ a_end c = true.
Proof.
  intros H pre n vs es post -> Hf. apply calls_split in H as (b & b' & _ & Hc & Hp). inversion Hc; subst.
  match goal with X : true = true <-> _ |- _ => destruct (proj1 X eq_refl) as (-> & Hpd & Hen) end.
  destruct (calls_done _ _ _ _ _ Hp Hpd Hf) as (W & P & En). rewrite W, P, En. repeat split; auto.
  match goal with X : untag (from _ _) = _ |- _ => rewrite app_nil_r in X; rewrite <- X end.
  unfold untag, from; rewrite skipn_map; auto.
Qed.
Lemma chunks_read_S E n : chunks_read E (S n) = chunks_read E n ++
  (let l := match te_rd E n with RdData vecs _ _ => concat vecs | RdErr _ => [] end in if zlen l =? 0 then [] else [l]).
Proof. unfold chunks_read. rewrite seq_S, map_app, filter_app; cbn [map filter Nat.add]. destruct (zlen _ =? 0); auto. Qed.
Definition framing (E : txenv) (a : ast) : Prop := exists fs, frames_of (untag (a_wire a)) fs /\ payloads 0 fs = chunks_read E (a_rd a).
Lemma frames_snoc w fs ty p f : frames_of w fs -> framed ty p f -> frames_of (w ++ f) (fs ++ [(ty, p, f)]).
Proof.
  intros [H1 H2] H; split; [rewrite map_app, concat_app, H1; cbn; rewrite app_nil_r; auto|]. apply Forall_app; auto.
Qed.
Lemma payloads_snoc t fs ty p f : payloads t (fs ++ [(ty, p, f)]) = payloads t fs ++ (if ty =? t then [p] else []).
Proof. unfold payloads. rewrite filter_app, map_app; cbn [filter fst]. destruct (ty =? t); auto. Qed.
Lemma emit_framing E a es b : emit E a es b -> framing E a -> framing E b.
Proof.
  intros H (fs & F & P). unfold framing. destruct H; cbn [a_wire a_rd] in *; rewrite ?untag_app, ?untag_tag.
  1-4: eexists; split; [eapply frames_snoc; eauto|]; rewrite payloads_snoc; cbn [Z.eqb]; rewrite app_nil_r; auto.
  - eexists; split; [eapply frames_snoc; eauto|]. rewrite payloads_snoc, P, chunks_read_S, H. cbn [Z.eqb].
    destruct (Z.eqb_spec (zlen (concat vecs)) 0) as [Z0|]; auto. apply zlen_0 in Z0; congruence.
  - exists fs; split; auto. rewrite P, chunks_read_S, H, H0. cbn; rewrite app_nil_r; auto.
  - exists fs; split; auto. rewrite P, chunks_read_S, H. cbn; rewrite app_nil_r; auto.
Qed.
Lemma emits_framing E a es b : emits E a es b -> framing E a -> framing E b.
Proof. induction 1; eauto using emit_framing. Qed.
Lemma call_framing E L a o r b : call E L a o r b -> raw o = false -> framing E a -> framing E b.
Proof.
  destruct 1; cbn [raw]; intros Hr Hf; auto; try discriminate;
    match goal with X : (if a_blk a then _ else _) |- _ => destruct (a_blk a); [destruct X as [_ ->]; auto|eapply emits_framing; eauto] end.
Qed.
Lemma calls_framing E L a tr b : calls E L a tr b -> Forall (fun x => raw (fst x) = false) tr -> framing E a -> framing E b.
Proof. induction 1; intros Hf; inversion Hf; subst; auto. intros; eapply IHcalls; eauto. eapply call_framing; eauto. Qed.
Lemma framing0 E : framing E a0. Proof. exists []; repeat split; constructor. Qed.
Fixpoint lawful_rec (L : ledger) (tr : list (op * res)) : Prop :=
  match tr with [] => True | (o, r) :: tr' => op_ok L o /\ lawful_rec (led_step L o r) tr' end.
Lemma lawful_rec_ok tr : forall L, lawful_rec L tr -> lawful_from L tr.
Proof.
  induction tr as [|[o r] tr IH]; intros L H pre o1 r1 post E; [destruct pre; discriminate|]. cbn [lawful_rec] in H; destruct H as [H1 H2].
  destruct pre as [|[o2 r2] pre]; cbn [app] in E; injection E; intros; subst; [exact H1|]. apply (IH _ H2 pre o1 r1 post); auto.
Qed.
