(* An encoder and the decoder of its peer. *)
From Verif Require Import Base BaseLemmas Tables ConvProofs QpackIntModel QpackIntSpec QpackIntProofs
  HuffModel HuffSpec HuffProofs QpackTabModel QpackTabSpec QpackTabProofs QpackDynSpec QpackDynProofs
  Chunk QpackDecModel QpackReadProofs QpackDecProofs QpackSecProofs QpackHistModel QpackHistSpec QpackHistProofs QpackCutProofs QpackEncModel
  QpackWireProofs QpackEncSpec QpackEncProofs QpackNvProofs QpackNvsProofs QpackShrinkProofs QpackStreamProofs QpackFeedProofs QpackEvolveProofs QpackEncHistProofs.

Lemma ok_inj A (a b : A) : Ok a = Ok b -> a = b. Proof. intros H. injection H. auto. Qed.
Lemma expect_sent hs : map got_field (map expect hs) = map sent_field hs.
Proof.
  rewrite map_map. apply map_ext. intros h. unfold got_field, sent_field, expect. cbn [q_name q_value q_flags]. f_equal.
  unfold is_nevh. destruct (has_flag (nv_flags h) FLAG_NEVER_INDEX); reflexivity.
Qed.

Lemma run_final d s ric id hs rb base refs : es_inv d -> bad (d_ctx d) = false -> s_start s -> s_ricnt s = ric -> s_id s = id -> s_base s = base ->
  body_sem base refs rb (map expect hs) -> refs_in (d_ctx d) ric refs -> (ric = 0 \/ dbuf_overflow d = false) -> 
  exists d' s', sec_result d true (rs_run (d_ctx d) s rb) = (map expect hs, RqFinal d' s') /\ s_id s' = id /\ s_ricnt s' = ric.
Proof.
  intros I B St Rc Si Sb [Bb Bs] Rf Ov. destruct (Bs (d_ctx d) s [] (proj1 I) St Sb ltac:(constructor) ltac:(rewrite Rc; auto)) as (s' & S1 & S2 & S3 & S4 & S5).
  rewrite app_nil_r in S5. rewrite S5. cbn [rs_run run run_fuel rev_ sec_result]. change (rs_run (d_ctx d) s' []) with (@ROk sctx qnv s' []). cbn [rev_ sec_result]. rewrite app_nil_r.
  unfold rq_end, read_request_fin. destruct S1 as (_ & S1 & _). rewrite S1. destruct (s_ricnt s' =? 0) eqn:E0.
  - exists (d_set_unint d 0), s'. split; [reflexivity|]. split; congruence.
  - destruct Ov as [Ov|Ov]; [apply Z.eqb_neq in E0; congruence|]. unfold write_section_ack. rewrite Ov. eexists _, s'. split; [reflexivity|]. split; congruence.
Qed.
Lemma form_refs_in c hard sec ric base refs hs : sec_form hard sec ric base refs hs -> Forall (fun x => at_index c (fst x) (snd x)) refs -> refs_in c ric refs.
Proof.
  intros (pb & rb & _ & _ & _ & E & _) F. unfold refs_in. rewrite Forall_forall in *. intros x Hx. split; [|auto].
  pose proof (proj1 (proj2 (fmax_spec refs 0)) x Hx). lia.
Qed.
Lemma decode_form hard d id sec ric base refs hs : es_inv d -> bad (d_ctx d) = false -> hard_max (d_ctx d) = hard -> 0 <= hard < 2 ^ 62 ->
  bytes sec -> sec_form hard sec ric base refs hs -> 0 <= ric < 2 ^ 62 -> (ric <> 0 -> 0 < hard / 32) ->
  (ric <> 0 -> next_absidx (d_ctx d) - hard / 32 < ric <= next_absidx (d_ctx d) + hard / 32) ->
  if ric <=? next_absidx (d_ctx d) then
    Forall (fun x => at_index (d_ctx d) (fst x) (snd x)) refs -> (ric = 0 \/ dbuf_overflow d = false) -> decodes_to d (sctx_init id) sec hs id ric
  else exists s rest, decode_section d (sctx_init id) sec true = ([], RqBlocked s rest) /\ s_ricnt s = ric /\ s_id s = id /\
    forall d2, es_inv d2 -> bad (d_ctx d2) = false -> ric <= next_absidx (d_ctx d2) -> dbuf_overflow d2 = false ->
      Forall (fun x => at_index (d_ctx d2) (fst x) (snd x)) refs -> decodes_to d2 s rest hs id ric.
Proof.
  intros I B Hd Hh Bs Fm Hr Hm Hn. pose proof Fm as (pb & rb & -> & Wp & Hb & Em & Bd & Ne).
  destruct (prefix_ok hard ric base Hh Hr Hb Hm) as (He & Wp2 & Bp & _). cbv zeta in *. rewrite Wp in Wp2. apply ok_inj in Wp2. clear Wp Bs.
  set (en := if ric =? 0 then 0 else ric mod (2 * (hard / 32)) + 1) in *.
  assert (Rc : reconstruct_ricnt (d_ctx d) en = Ok ric).
  { unfold en. destruct (Z.eqb_spec ric 0) as [->|H0]; [reflexivity|]. apply reconstruct_encoded; auto; try lia; congruence. }
  pose proof (rs_prefix (d_ctx d) id en ric base rb (proj1 I) He Hr Hb (proj1 Bd) Rc) as P. cbv zeta in P.
  rewrite app_assoc, <- Wp2 in P.
  assert (Bt : bytes (pb ++ rb)) by (apply bytes_app; split; [rewrite Wp2; auto|apply Bd]).
  destruct (Z.leb_spec ric (next_absidx (d_ctx d))) as [H1|H1].
  - destruct P as (s & P1 & P2 & P3 & P4 & P5). intros Fr Ov.
    unfold decodes_to. rewrite decode_section_run; auto; [|apply I|apply rs_inv_init]. rewrite P5.
    destruct (run_final d s ric id hs rb base refs I B P1 P3 P2 P4 Bd (form_refs_in _ _ _ _ _ _ _ Fm Fr) Ov) as (d' & s' & R1 & R2 & R3).
    exists (map expect hs), d', s'. split; [auto|]. split; [apply expect_sent|auto].
  - destruct P as (s & P1 & P2 & P3 & P4 & P5 & P6). exists s, rb.
    split; [rewrite decode_section_run; auto; [rewrite P6; reflexivity|apply I|apply rs_inv_init]|]. split; [auto|]. split; [auto|].
    intros d2 I2 B2 H2 Ov Fr. assert (Hne : rb <> []) by (apply Ne; pose proof (tab_at_len _ _ _ (wf_tab _ (proj1 (proj1 I)))) as Tl; pose proof (zlen_nonneg _ (dtable (d_ctx d))); lia).
    destruct (rs_unblock (d_ctx d2) s rb (proj1 I2) P1 P2 ltac:(lia) (proj1 Bd) Hne) as (s2 & Q1 & Q2 & Q3 & Q4 & Q5).
    unfold decodes_to. rewrite decode_section_run; auto; [|apply I2|apply Bd]. rewrite Q5.
    destruct (run_final d2 s2 ric id hs rb base refs I2 B2 Q1 ltac:(congruence) ltac:(congruence) ltac:(congruence) Bd (form_refs_in _ _ _ _ _ _ _ Fm Fr) ltac:(auto)) as (d' & s' & R1 & R2 & R3).
    exists (map expect hs), d', s'. split; [auto|]. split; [apply expect_sent|auto].
Qed.

(* ---- a decoder that has received part of the encoder stream ---- *)
Lemma peer_state hard blocked tr E V dops w dtr more : 0 <= hard -> einv blocked hard tr E V -> Forall dop_ok dops ->
  drun (dw_init hard blocked) dops = Some (w, dtr) -> error_free dtr -> enc_bytes tr = received dops ++ more ->
  es_inv (w_dec w) /\ bad (d_ctx (w_dec w)) = false /\ hard_max (d_ctx (w_dec w)) = hard /\ old_of (d_ctx (w_dec w)) (d_ctx V) /\
  bytes more /\ (exists ev, es_run (core (w_dec w)) more = ROk V ev) /\ (more = [] -> d_ctx (w_dec w) = d_ctx V).
Proof.
  intros Hh I Fd Dr Ef Eq. destruct (drun_winv dops _ (winv_init hard blocked Hh) Fd) as (w1 & tr1 & E1 & W & L). rewrite Dr in E1. injection E1 as <- <-.
  destruct (drun_core dops _ _ _ (winv_init hard blocked Hh) Fd eq_refl Dr Ef) as (B & Br & ev & Rn).
  change (core (w_dec (dw_init hard blocked))) with (dec_init hard blocked) in Rn.
  destruct (ei_es _ _ _ _ _ I) as (Be & Iv & Sv & Run). specialize (Run [] ltac:(constructor)). rewrite app_nil_r in Run.
  change (es_run V []) with (@ROk dec unit V []) in Run || idtac.
  assert (Bm : bytes more) by (rewrite Eq in Be; apply bytes_app in Be; apply Be).
  rewrite Eq, es_run_app in Run; auto; [|apply es_inv_init; auto]. rewrite Rn in Run.
  assert (Rm : exists ev, es_run (core (w_dec w)) more = ROk V ev).
  { destruct (es_run (core (w_dec w)) more) as [d' ev'|d' r ev'|e d' ev'|]; cbn [rev_] in Run; try discriminate.
    unfold es_run, run in Run. cbn [run_fuel] in Run. injection Run as -> _. eauto. }
  split; [apply W|]. split; [auto|]. split; [apply L|]. destruct Rm as [ev2 Rm]. pose proof (es_run_old (core (w_dec w)) more) as Od. rewrite Rm in Od.
  split; [exact Od|]. split; [auto|]. split; [eauto|]. intros ->. unfold es_run, run in Rm. cbn [run_fuel] in Rm. injection Rm as <- _. reflexivity.
Qed.

Lemma table_count c : ctx_ok c -> zlen (dtable c) <= hard_max c / 32.
Proof.
  intros [W S]. pose proof (wf_size _ W) as Sz. pose proof (wf_cap _ W).
  assert (32 * zlen (dtable c) <= tsize (dtable c)).
  { rewrite tsize_contents, <- contents_len. unfold contents. generalize (map kv (dtable c)). intros l. induction l as [|f l IH]; [cbn; lia|].
    rewrite zlen_cons. cbn [tab_size]. pose proof (fld_min f). lia. }
  apply Z.div_le_lower_bound; lia.
Qed.
Lemma vlink_count hard V e : vlink hard V e -> zlen (dtable (enc_ctx e)) <= zlen (dtable (d_ctx V)) <= hard / 32.
Proof.
  intros L. destruct (vl_pre _ _ _ L) as [t E]. pose proof (table_count _ (proj1 (vl_inv _ _ _ L))) as T. rewrite (vl_hv _ _ _ L) in T.
  split; [|auto]. rewrite <- !contents_len, E, zlen_app. pose proof (zlen_nonneg _ t). lia.
Qed.
Lemma vlink_at hard V e i f : vlink hard V e -> at_index (enc_ctx e) i f -> at_index (d_ctx V) i f.
Proof. intros L. destruct (vl_pre _ _ _ L) as [t E]. apply at_prefix with t; auto. symmetry. apply L. Qed.

(* the sections that a peer may still have to decode *)
Definition section_of (hard : Z) (E : enc) (s : sent) : Prop :=
  bytes (o_bytes s) /\ exists base refs, sec_form hard (o_bytes s) (o_ric s) base refs (o_fields s) /\
    Forall (fun x => at_index (enc_ctx E) (fst x) (snd x)) refs /\ 0 <= o_ric s <= next_absidx (enc_ctx E) /\
    (o_ric s <> 0 -> next_absidx (enc_ctx E) - hard / 32 < o_ric s /\ 0 < hard / 32).
Lemma form_ric hard V E sec base refs hs ric : vlink hard V E -> sec_form hard sec ric base refs hs -> Forall (fun x => at_index (enc_ctx E) (fst x) (snd x)) refs ->
  0 <= next_absidx (enc_ctx E) ->
  0 <= ric <= next_absidx (enc_ctx E) /\ (ric <> 0 -> next_absidx (enc_ctx E) - hard / 32 < ric /\ 0 < hard / 32).
Proof.
  intros L (pb & rb & _ & _ & _ & Em & _) F Hn. rewrite Forall_forall in F. destruct (fmax_spec refs 0) as (X1 & _ & [X3|(r & X3 & X4)]); rewrite <- Em in *.
  - split; [lia|]. congruence.
  - pose proof (F r X3) as A. pose proof (at_range _ _ _ A). pose proof (vlink_count _ _ _ L). pose proof (vlink_room _ _ _ _ _ L A). destruct A as [A _]. split; lia.
Qed.
Lemma on_stream_in id l s : In s l -> o_id s = id -> In s (on_stream id l).
Proof. intros H E. apply filter_In. split; [auto|]. apply Z.eqb_eq. auto. Qed.
Lemma forall2_in_r A B (P : A -> B -> Prop) l m b : Forall2 P l m -> In b m -> exists a, In a l /\ P a b.
Proof. induction 1 as [|x y l m H X IH]; intros []; [subst; exists x; split; [left; auto|auto]|]. destruct (IH H0) as (a & H1 & H2). exists a. split; [right; auto|auto]. Qed.
Lemma forall2_in_l A B (P : A -> B -> Prop) l m a : Forall2 P l m -> In a l -> exists b, In b m /\ P a b.
Proof. induction 1 as [|x y l m H X IH]; intros []; [subst; exists y; split; [left; auto|auto]|]. destruct (IH H0) as (b & H1 & H2). exists b. split; [right; auto|auto]. Qed.
Lemma write_prefix_bytes hard ric base pb : 0 <= hard < 2 ^ 62 -> 0 <= ric < 2 ^ 62 -> 0 <= base < 2 ^ 62 -> (ric <> 0 -> 0 < hard / 32) ->
  write_prefix hard ric base = Ok pb -> bytes pb.
Proof. intros H1 H2 H3 H4 E. destruct (prefix_ok hard ric base H1 H2 H3 H4) as (_ & X & Y & _). cbv zeta in *. rewrite E in X. apply ok_inj in X. rewrite X. auto. Qed.
Lemma outstanding_section blk hard tr E V s : 0 <= hard < 2 ^ 62 -> einv blk hard tr E V -> next_absidx (enc_ctx E) < 2 ^ 62 -> In s (v_out (view_of tr)) -> section_of hard E s /\ o_ric s <> 0.
Proof.
  intros Hh I Hn Hi. pose proof (rl_out _ _ _ (ei_rl _ _ _ _ _ I) (o_id s)) as F2. destruct (forall2_in_r _ _ _ _ _ s F2 (on_stream_in _ _ _ Hi eq_refl)) as ([mx mn] & H1 & [O1 (b & rs & O2 & O3 & O4)]).
  destruct (si_refs _ _ _ _ (proj1 (ei_ds _ _ _ _ _ I)) _ _ _ H1) as (K1 & K2 & K3). cbn [fst] in O1.
  assert (N0 : 0 <= next_absidx (enc_ctx E)) by lia.
  destruct (form_ric _ _ _ _ _ _ _ _ (ei_vl _ _ _ _ _ I) O2 O4 N0) as [F3 F4].
  split; [|lia]. split.
  - pose proof O2 as (pb & rb & -> & Wp & Hb & _ & Bd & _). apply bytes_app. split; [|apply Bd]. refine (write_prefix_bytes hard (o_ric s) b pb Hh _ Hb _ Wp); [lia|]. intros X. destruct (F4 X). auto.
  - exists b, rs. auto.
Qed.
Lemma static_section blk hard tr E V id hs sec eb : einv blk hard tr E V -> In (EEncode id hs, ErSection sec eb 0) tr -> section_of hard E (mk_sent id hs sec 0).
Proof.
  intros I Hi. pose proof (ei_sec _ _ _ _ _ I) as F. rewrite Forall_forall in F. specialize (F _ Hi). cbn [sec_fact] in F. destruct F as (F1 & _ & _ & b & rs & F2 & F3).
  split; [exact F1|]. cbn [o_bytes o_ric o_fields]. exists b, rs. split; [auto|].
  assert (rs = []).
  { pose proof F2 as (pb & rb & _ & _ & _ & Em & _). destruct rs as [|r rs]; [auto|]. rewrite Forall_forall in F3.
    pose proof (proj1 (proj2 (fmax_spec (r :: rs) 0)) r (or_introl eq_refl)). specialize (F3 r (or_introl eq_refl)). lia. }
  subst rs. split; [constructor|]. pose proof (si_k _ _ _ _ (proj1 (ei_ds _ _ _ _ _ I))). split; [lia|]. congruence.
Qed.

Lemma section_decodes hard blocked tr E V dops w dtr more s : 0 <= hard < 2 ^ 62 -> einv blocked hard tr E V -> next_absidx (enc_ctx E) < 2 ^ 62 -> Forall dop_ok dops ->
  drun (dw_init hard blocked) dops = Some (w, dtr) -> error_free dtr -> enc_bytes tr = received dops ++ more -> section_of hard E s ->
  o_ric s <= insert_count w -> (o_ric s = 0 \/ dbuf_overflow (w_dec w) = false) ->
  decodes_to (w_dec w) (sctx_init (o_id s)) (o_bytes s) (o_fields s) (o_id s) (o_ric s).
Proof.
  intros Hh I Hn Fd Dr Ef Eq (Bs & base & refs & Fm & At & Rr & Rm) Le Ov. unfold insert_count in Le.
  destruct (peer_state hard blocked tr E V dops w dtr more ltac:(lia) I Fd Dr Ef Eq) as (P1 & P2 & P3 & (P4 & P5 & P6) & _).
  pose proof (ei_vl _ _ _ _ _ I) as L. pose proof (vl_next _ _ _ L) as Nx.
  pose proof (decode_form hard (w_dec w) (o_id s) (o_bytes s) (o_ric s) base refs (o_fields s) P1 P2 P3 Hh Bs Fm ltac:(lia) ltac:(intros X; apply Rm; auto) ltac:(intros X; specialize (Rm X); lia)) as D.
  destruct (Z.leb_spec (o_ric s) (next_absidx (d_ctx (w_dec w)))); [|lia]. apply D; auto.
  rewrite Forall_forall in *. intros x Hx. apply P6.
  - apply (vlink_at _ _ _ _ _ L). auto.
  - pose proof Fm as (pb & rb & _ & _ & _ & Em & _). pose proof (proj1 (proj2 (fmax_spec refs 0)) x Hx). lia.
Qed.
Lemma section_blocks hard blocked tr E V dops w dtr more s : 0 <= hard < 2 ^ 62 -> einv blocked hard tr E V -> next_absidx (enc_ctx E) < 2 ^ 62 -> Forall dop_ok dops ->
  drun (dw_init hard blocked) dops = Some (w, dtr) -> error_free dtr -> enc_bytes tr = received dops ++ more -> section_of hard E s ->
  insert_count w < o_ric s <= insert_count w + hard / 32 ->
  exists st rest, decode_section (w_dec w) (sctx_init (o_id s)) (o_bytes s) true = ([], RqBlocked st rest) /\ s_ricnt st = o_ric s /\ s_id st = o_id s /\
    forall dops2 w2 dtr2 more2, Forall dop_ok dops2 -> drun (dw_init hard blocked) dops2 = Some (w2, dtr2) -> error_free dtr2 -> enc_bytes tr = received dops2 ++ more2 ->
      o_ric s <= insert_count w2 -> dbuf_overflow (w_dec w2) = false -> decodes_to (w_dec w2) st rest (o_fields s) (o_id s) (o_ric s).
Proof.
  intros Hh I Hn Fd Dr Ef Eq (Bs & base & refs & Fm & At & Rr & Rm) Le. unfold insert_count in *.
  destruct (peer_state hard blocked tr E V dops w dtr more ltac:(lia) I Fd Dr Ef Eq) as (P1 & P2 & P3 & (P4 & P5 & P6) & _).
  pose proof (ei_vl _ _ _ _ _ I) as L. pose proof (vl_next _ _ _ L) as Nx.
  pose proof (decode_form hard (w_dec w) (o_id s) (o_bytes s) (o_ric s) base refs (o_fields s) P1 P2 P3 Hh Bs Fm ltac:(lia) ltac:(intros X; apply Rm; auto) ltac:(intros X; specialize (Rm X); lia)) as D.
  destruct (Z.leb_spec (o_ric s) (next_absidx (d_ctx (w_dec w)))); [lia|]. destruct D as (st & rest & D1 & D2 & D3 & D4).
  exists st, rest. split; [auto|]. split; [auto|]. split; [auto|]. intros dops2 w2 dtr2 more2 Fd2 Dr2 Ef2 Eq2 Le2 Ov2.
  destruct (peer_state hard blocked tr E V dops2 w2 dtr2 more2 ltac:(lia) I Fd2 Dr2 Ef2 Eq2) as (Q1 & Q2 & Q3 & (Q4 & Q5 & Q6) & _).
  apply D4; auto. rewrite Forall_forall in *. intros x Hx. apply Q6.
  - apply (vlink_at _ _ _ _ _ L). auto.
  - pose proof Fm as (pb & rb & _ & _ & _ & Em & _). pose proof (proj1 (proj2 (fmax_spec refs 0)) x Hx). lia.
Qed.
(* against the encoder's own table *)
Lemma section_own blk hard tr E V s : 0 <= hard < 2 ^ 62 -> einv blk hard tr E V -> next_absidx (enc_ctx E) < 2 ^ 62 -> section_of hard E s ->
  decodes_to (knowing (enc_ctx E)) (sctx_init (o_id s)) (o_bytes s) (o_fields s) (o_id s) (o_ric s).
Proof.
  intros Hh I Hn (Bs & base & refs & Fm & At & Rr & Rm). pose proof (ei_vl _ _ _ _ _ I) as L. pose proof (vl_he _ _ _ L) as He.
  assert (K : es_inv (knowing (enc_ctx E))).
  { split; [|reflexivity]. pose proof (vl_wf _ _ _ L) as W. destruct W as [W1 W2 W3].
    destruct (vl_pre _ _ _ L) as [t Et]. destruct (vl_inv _ _ _ L) as [[Wv Sv] _]. pose proof (wf_size _ Wv) as Z1. rewrite tsize_contents, Et, tab_app in Z1.
    pose proof (tab_nonneg t). rewrite tsize_contents in W1. pose proof (wf_cap _ Wv). rewrite (vl_hv _ _ _ L) in *.
    split; [constructor; cbn; auto; try (rewrite tsize_contents; auto); try lia|]; cbn; try lia. }
  pose proof (decode_form hard (knowing (enc_ctx E)) (o_id s) (o_bytes s) (o_ric s) base refs (o_fields s) K eq_refl He Hh Bs Fm ltac:(lia) ltac:(intros X; apply Rm; auto)
    ltac:(cbn [knowing d_ctx next_absidx]; intros X; specialize (Rm X); lia)) as D.
  cbn [knowing d_ctx next_absidx] in D. destruct (Z.leb_spec (o_ric s) (next_absidx (enc_ctx E))); [|lia]. apply D; auto.
Qed.

(* the encoder stream is always accepted *)
Lemma stream_accepted hard blocked tr E V dops w dtr src more : 0 <= hard < 2 ^ 62 -> einv blocked hard tr E V -> Forall dop_ok dops ->
  drun (dw_init hard blocked) dops = Some (w, dtr) -> error_free dtr -> enc_bytes tr = received dops ++ src ++ more ->
  d_unint (w_dec w) + zlen src <= MAX_ENCODERLEN -> exists w', dstep w (DEnc src) = Some (w', DrDone).
Proof.
  intros Hh I Fd Dr Ef Eq Le. destruct (peer_state hard blocked tr E V dops w dtr (src ++ more) ltac:(lia) I Fd Dr Ef Eq) as (P1 & P2 & P3 & _ & P5 & (ev & P6) & _).
  apply bytes_app in P5 as [P5 P5']. cbn [dstep]. rewrite read_encoder_run; auto. rewrite es_run_app in P6; auto.
  rewrite es_run_core in P6. pose proof (es_run_no_stop (w_dec w) src) as Ns. destruct (es_run (w_dec w) src); try discriminate; eauto.
Qed.
