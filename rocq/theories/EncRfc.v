(* What the QPACK encoder writes, read with the specification RfcQpackSpec.v. *)
From Verif Require Import Base BaseLemmas Tables ConvProofs QpackIntModel QpackIntSpec QpackIntProofs
  HuffModel HuffSpec HuffProofs QpackTabModel QpackTabSpec QpackTabProofs QpackDynSpec QpackDynProofs
  Chunk QpackDecModel QpackReadProofs QpackDecProofs QpackSecProofs QpackHistModel QpackHistSpec QpackHistProofs QpackCutProofs QpackEncModel
  QpackWireProofs QpackEncSpec QpackEncProofs QpackNvProofs QpackNvsProofs QpackShrinkProofs QpackStreamProofs QpackFeedProofs QpackEvolveProofs QpackEncHistProofs
  QpackPeerProofs QpackEndProofs RfcQpackSpec RfcPrim RfcEnc RfcSec RfcMain RfcStreamSpec IdealSec MeanStream MeanGrow.
Open Scope Z_scope.

(* what the peer is to be given for a submitted field *)
Definition said (h : nv) : qnv := shown_field (nv_name h, nv_value h) (has_flag (nv_flags h) FLAG_NEVER_INDEX).
(* RFC 9204 4.5: the section [sec] with the Required Insert Count [ric] says the fields [hs], for a receiver that announced
   the capacity [max] and has received the insertions H; the encoded count is understood at any Insert Count that is
   not further away than 4.5.1.1 allows *)
Definition section_says (max : Z) (H : list field) (sec : list Z) (ric : Z) (hs : list nv) : Prop :=
  exists base m, (forall n, ric = 0 \/ n - max / 32 < ric <= n + max / 32 -> section_prefix max n sec ric base m) /\
    0 <= ric <= zlen H /\ field_lines (numbered H) ric base m (map said hs) [].

Lemma expect_shown h : expect h = said h.
Proof. unfold expect, said, shown_field. cbn [fst snd]. f_equal. Qed.
Lemma expect_all hs : map expect hs = map said hs. Proof. apply map_ext. exact expect_shown. Qed.

(* a run that ends between two instructions *)
Lemma es_run_whole max p : forall d t d' ev, es_inv d -> d_state d = EsOpcode -> tmatch max (d_ctx d) t -> bytes p ->
  es_run d p = ROk d' ev -> d_state d' = EsOpcode -> exists t', instructions max t p t' [] /\ tmatch max (d_ctx d') t'.
Proof.
  remember (length p) as n eqn:En. revert p En. induction n as [n IH] using (well_founded_induction Wf_nat.lt_wf).
  intros p En d t d' ev I St M B R S. destruct p as [|b u].
  { cbn in R. injection R as <- _. exists t. split; [constructor|exact M]. }
  destruct (instr_cases max d t I St M (b :: u) B ltac:(discriminate)) as [[(d1 & R1 & C & N) U]|[[(e & d1 & R1) U]|(i & r & t1 & d1 & A & Br & C & I' & S' & M' & R1)]].
  - rewrite R1 in R. injection R as <- _. contradiction.
  - rewrite R1 in R. discriminate.
  - rewrite R1 in R. pose proof (an_einstr_len _ _ _ A) as L.
    destruct (IH (length r) ltac:(lia) r eq_refl d1 t1 d' ev I' S' M' Br R S) as (t2 & X & Y). exists t2. split; [econstructor; eauto|exact Y].
Qed.
Lemma es_to_rfc max V eb V' t : es_inv V -> d_state V = EsOpcode -> tmatch max (d_ctx V) t -> es_to V eb V' ->
  exists t', instructions max t eb t' [] /\ tmatch max (d_ctx V') t'.
Proof.
  intros I S M (B & I' & S' & R). specialize (R [] ltac:(constructor)). rewrite app_nil_r in R.
  exact (es_run_whole max eb V t V' [] I S M B R S').
Qed.
Lemma stream_rfc blk hard tr E V : 0 <= hard -> einv blk hard tr E V -> exists t, instructions hard t_start (enc_bytes tr) t [] /\ tmatch hard (d_ctx V) t.
Proof. intros Hh I. apply (es_to_rfc hard (dec_init hard blk)); [apply es_inv_init; auto|reflexivity|apply tmatch_init; auto|apply I]. Qed.

(* the prefix *)
Lemma high_bit x : 0 <= x < 128 -> Z.testbit (128 + x) 7 = true.
Proof. intros H. rewrite Z.testbit_true by lia. change (2 ^ 7) with 128. replace (128 + x) with (x + 1 * 128) by lia. rewrite Z.div_add by lia. rewrite Z.div_small by lia. reflexivity. Qed.
Lemma low_bit x : 0 <= x < 128 -> Z.testbit (0 + x) 7 = false.
Proof.
  intros H. cbn [Z.add]. destruct (Z.eq_dec x 0) as [->|N]; [reflexivity|]. apply Z.bits_above_log2; [lia|]. apply Z.log2_lt_pow2; [lia|]. change (2 ^ 7) with 128. lia.
Qed.
Lemma prefix_rfc hard ric base rb n : 0 <= hard < 2 ^ 62 -> 0 <= ric < 2 ^ 62 -> 0 <= base < 2 ^ 62 -> (ric <> 0 -> 0 < hard / 32) ->
  ric = 0 \/ n - hard / 32 < ric <= n + hard / 32 ->
  forall pb, write_prefix hard ric base = Ok pb -> section_prefix hard n (pb ++ rb) ric base rb.
Proof.
  intros Hh Hr Hb Hm Hn pb W. destruct (prefix_ok hard ric base Hh Hr Hb Hm) as (He & W2 & _). cbv zeta in He, W2. rewrite W in W2. apply ok_inj in W2. subst pb.
  set (enc := if ric =? 0 then 0 else ric mod (2 * (hard / 32)) + 1) in *. set (sign := base <? ric). set (delta := if sign then ric - base - 1 else base - ric).
  assert (Hd : 0 <= delta < 2 ^ 62) by (unfold delta, sign; destruct (Z.ltb_spec base ric); lia).
  assert (Hf : is_byte (if sign then 128 else 0)) by (unfold is_byte; destruct sign; lia).
  destruct (q_put_varint_first 8 0 enc ltac:(lia) ltac:(unfold is_byte; lia) He) as (t1 & E1 & B1 & L1 & R1 & Z1).
  destruct (q_put_varint_first 7 (if sign then 128 else 0) delta ltac:(lia) Hf Hd) as (t2 & E2 & B2 & L2 & R2 & Z2).
  set (p1 := q_put_varint 0 enc 8) in *. set (p2 := q_put_varint (if sign then 128 else 0) delta 7) in *.
  exists enc. unfold section_prefix. rewrite <- app_assoc. pose proof (R1 (p2 ++ rb)) as R1'. pose proof (R2 rb) as R2'.
  set (b2 := (if sign then 128 else 0) / 2 ^ 7 * 2 ^ 7 + Z.min delta (2 ^ 7 - 1)) in *.
  exists b2, (t2 ++ rb), delta.
  assert (Q : p2 ++ rb = b2 :: t2 ++ rb) by (rewrite E2; reflexivity). rewrite <- Q.
  split; [lia|]. split; [split; [exact R1'|]; split; [lia|rewrite !zlen_app; lia]|].
  split. { unfold required, enc. destruct (Z.eqb_spec ric 0) as [->|N0]; [reflexivity|]. cbv zeta. specialize (Hm N0). destruct Hn as [Hn|Hn]; [contradiction|]. repeat split; lia. }
  split; [split; [exact R2'|]; split; [lia|rewrite zlen_app; lia]|]. split; [lia|].
  assert (TB : Z.testbit b2 7 = sign).
  { assert (Hx : 0 <= Z.min delta (2 ^ 7 - 1) < 128) by (change (2 ^ 7) with 128; lia). unfold b2. destruct sign.
    - change (128 / 2 ^ 7 * 2 ^ 7) with 128. apply high_bit. exact Hx.
    - change (0 / 2 ^ 7 * 2 ^ 7) with 0. apply low_bit. exact Hx. }
  rewrite TB. unfold delta, sign. destruct (Z.ltb_spec base ric); lia.
Qed.

(* the lines *)
Definition s_lines (ric base : Z) : sctx := mk_sctx RsOpcode RoIndexed rs_reset 0 ric false base.
Lemma s_lines_start ric base : 0 <= ric -> 0 <= base -> s_start (s_lines ric base).
Proof. intros A B. split; [|split; reflexivity]. split; [exact A|]. split; [exact B|]. split; reflexivity. Qed.
Lemma nth_kv H i f : Forall fbytes H -> numbered H i = Some f -> at_index (ideal H) i f.
Proof.
  intros F N. pose proof (numbered_lt _ _ _ N) as L. split; [exact L|]. change (next_absidx (ideal H)) with (zlen H).
  rewrite numbered_rev in N by exact L. replace (zlen H - 1 - i) with (zlen H - i - 1) by lia.
  destruct (itab_nth _ (zlen H) _ _ N) as (e & E & K & _). unfold contents, ideal. cbn [dtable]. rewrite nth_error_map, E. cbn. rewrite K. reflexivity.
Qed.
Lemma body_lines base refs rb qs H ric : body_sem base refs rb qs -> Forall fbytes H -> 0 <= ric <= zlen H -> 0 <= base ->
  Forall (fun x => fst x < ric /\ numbered H (fst x) = Some (snd x)) refs -> field_lines (numbered H) ric base rb qs [].
Proof.
  intros [B S] F Hr Hb R. pose proof (s_lines_start ric base ltac:(lia) Hb) as SS.
  destruct (S (ideal H) (s_lines ric base) [] (ideal_ok H F) SS eq_refl ltac:(constructor)) as (s' & S1 & S2 & S3 & S4 & S5).
  { unfold refs_in. eapply Forall_impl; [|exact R]. intros x [A N]. split; [exact A|]. apply nth_kv; auto. }
  rewrite app_nil_r in S5. change (rs_run (ideal H) s' []) with (@ROk sctx qnv s' []) in S5. cbn [rev_] in S5. rewrite app_nil_r in S5.
  pose proof (lines_run (ideal H) (numbered H) (ideal_smatch H F) rb (s_lines ric base) SS) as LR. change (next_absidx (ideal H)) with (zlen H) in LR.
  specialize (LR ltac:(cbn [s_lines s_ricnt]; lia) B). rewrite S5 in LR. cbn [s_lines s_ricnt s_base] in LR. destruct LR as (l & L1 & [(-> & _)|(_ & N & _)]); [exact L1|].
  destruct S1 as (_ & S1 & _). contradiction.
Qed.
Lemma at_numbered max c t i f : tmatch max c t -> at_index c i f -> numbered (t_all t) i = Some f.
Proof.
  intros M [L N]. rewrite numbered_rev by (rewrite <- (tm_next _ _ _ M); exact L). rewrite <- (tm_next _ _ _ M). replace (next_absidx c - i - 1) with (next_absidx c - 1 - i) by lia.
  destruct (tm_old _ _ _ M) as (old & O). rewrite O. rewrite (tm_live _ _ _ M) in N. rewrite nth_error_app1; [exact N|]. apply nth_error_Some. intros X. pose proof (eq_trans (eq_sym N) X) as Q. discriminate Q.
Qed.

Lemma tmatch_sound max c t : tmatch max c t -> forall p l, bytes p -> instructions max t_start p t l -> Forall fbytes (t_all t).
Proof. intros M p l B I. exact (proj1 (proj1 (instructions_sound _ _ _ _ _ I sound_start B))). Qed.

(* the section written by the last call *)
Lemma form_says hard V e t sec ric base refs hs : 0 <= hard < 2 ^ 62 -> vlink hard V e -> tmatch hard (d_ctx V) t -> Forall fbytes (t_all t) -> next_absidx (enc_ctx e) < 2 ^ 62 ->
  sec_form hard sec ric base refs hs -> Forall (fun x => at_index (enc_ctx e) (fst x) (snd x)) refs -> 0 <= next_absidx (enc_ctx e) ->
  section_says hard (t_all t) sec ric hs.
Proof.
  intros Hh L M F Hn Fm A N0. destruct (form_ric _ _ _ _ _ _ _ _ L Fm A N0) as [R1 R2]. pose proof Fm as (pb & rb & -> & W & Hb & Em & Bd & _).
  pose proof (vl_next _ _ _ L) as Nx. exists base, rb. split.
  - intros n Hw. apply (prefix_rfc hard ric base rb n Hh ltac:(lia) Hb ltac:(intros X; apply R2; exact X) Hw pb W).
  - assert (Ln : 0 <= ric <= zlen (t_all t)) by (rewrite <- (tm_next _ _ _ M); lia). split; [exact Ln|]. rewrite <- expect_all. apply (body_lines base refs rb (map expect hs) (t_all t) ric Bd F Ln ltac:(lia)).
    rewrite Forall_forall in *. intros x Hx. split; [assert (Y : fst x + 1 <= ric) by (rewrite Em; exact (proj1 (proj2 (fmax_spec refs 0)) x Hx)); lia|]. eapply at_numbered; [exact M|]. apply (vlink_at _ _ _ _ _ L). auto.
Qed.
Lemma says_grow max H X sec ric hs : section_says max H sec ric hs -> section_says max (H ++ X) sec ric hs.
Proof.
  intros (base & m & P & R & L). exists base, m. split; [exact P|]. pose proof (zlen_nonneg _ X). split; [rewrite zlen_app; lia|].
  assert (G : forall l qs r, field_lines (numbered H) ric base l qs r -> field_lines (numbered (H ++ X)) ric base l qs r).
  { induction 1 as [l|l q k qs r A B IH]; [constructor|]. econstructor; [|exact IH]. eapply field_line_dyn; [|exact A]. intros i f _. apply numbered_app. }
  apply G. exact L.
Qed.

Theorem encoder_rfc blk hard ops E tr : 0 <= hard < 2 ^ 62 -> Forall eop_ok ops -> zlen (submitted ops) < 2 ^ 62 - 2 -> erun (enc_init hard) ops = Some (E, tr) ->
  exists V t, einv blk hard tr E V /\ instructions hard t_start (enc_bytes tr) t [] /\ tmatch hard (d_ctx V) t /\ Forall fbytes (t_all t) /\
    forall id hs sec eb ric, In (EEncode id hs, ErSection sec eb ric) tr -> section_says hard (t_all t) sec ric hs.
Proof.
  intros Hh. revert E tr. induction ops as [|o ops IH] using rev_ind; intros E tr Ok Sz R.
  - cbn in R. injection R as <- <-. exists (dec_init hard blk), t_start. split; [apply einv_init; lia|]. split; [constructor|]. split; [apply tmatch_init; lia|]. split; [constructor|]. intros id hs sec eb ric [].
  - apply Forall_app in Ok as [Ok1 Ok2]. inversion Ok2 as [|? ? Oo _]; subst. pose proof Sz as Sz0. rewrite submitted_app, zlen_app in Sz. pose proof (zlen_nonneg _ (submitted [o])) as Z0.
    destruct (erun_snoc _ _ _ _ _ R) as (e1 & tr1 & r & R1 & S1 & ->). destruct (IH e1 tr1 Ok1 ltac:(lia) R1) as (V & t & I & In1 & M & F & Sec).
    assert (Mf : map fst tr1 = ops) by (destruct (from_start blk hard ops e1 tr1 Hh Ok1 ltac:(lia) R1) as (_ & _ & X & _); exact X).
    destruct (estep_inv blk hard tr1 e1 V o Hh I Oo ltac:(rewrite Mf; exact Sz0)) as (e' & r' & V' & S' & I' & EO). rewrite S1 in S'. injection S' as <- <-.
    destruct (stream_rfc blk hard _ _ _ ltac:(lia) I') as (t' & In' & M').
    assert (B' : bytes (enc_bytes (tr1 ++ [(o, r)]))) by (destruct (ei_es _ _ _ _ _ I') as (X & _); exact X).
    pose proof (tmatch_sound _ _ _ M' _ _ B' In') as F'.
    exists V', t'. split; [exact I'|]. split; [exact In'|]. split; [exact M'|]. split; [exact F'|].
    assert (G : exists X, t_all t' = t_all t ++ X).
    { rewrite enc_bytes_app in In', B'. eapply (insertions_grow hard _ _ _ _ B'); [exists t, []; split; [exact In1|]; split; [intros i x; apply an_einstr_nil|reflexivity]|exists t', []; split; [exact In'|]; split; [intros i x; apply an_einstr_nil|reflexivity]]. }
    destruct G as (X & G). intros id hs sec eb ric Hi. apply in_app_or in Hi as [Hi|[Hi|[]]].
    + rewrite G. apply says_grow. eapply Sec; eauto.
    + injection Hi as -> ->. specialize (EO id hs sec eb ric eq_refl eq_refl). destruct (eo_form _ _ _ _ _ _ _ _ _ _ _ EO) as (base & refs & Fm & At).
      pose proof (ei_next _ _ _ _ _ I') as Nx. rewrite map_app, Mf in Nx. cbn [map fst] in Nx.
      eapply (form_says hard V' E t' sec ric base refs hs Hh (ei_vl _ _ _ _ _ I') M' F'); eauto; [lia|].
      pose proof (si_k _ _ _ _ (proj1 (ei_ds _ _ _ _ _ I'))). lia.
Qed.

(* ---- a receiver that has got only a part of the encoder stream, and keeps only what its table holds ---- *)
Lemma body_lines_tab base refs rb qs c dyn ric : body_sem base refs rb qs -> smatch c dyn -> 0 <= ric <= next_absidx c -> 0 <= base ->
  refs_in c ric refs -> field_lines dyn ric base rb qs [].
Proof.
  intros [B S] SM Hr Hb R. pose proof (s_lines_start ric base ltac:(lia) Hb) as SS.
  destruct (S c (s_lines ric base) [] (sm_ok _ _ SM) SS eq_refl ltac:(constructor) R) as (s' & S1 & S2 & S3 & S4 & S5).
  rewrite app_nil_r in S5. change (rs_run c s' []) with (@ROk sctx qnv s' []) in S5. cbn [rev_] in S5. rewrite app_nil_r in S5.
  pose proof (lines_run c dyn SM rb (s_lines ric base) SS ltac:(cbn [s_lines s_ricnt]; lia) B) as LR. rewrite S5 in LR. cbn [s_lines s_ricnt s_base] in LR.
  destruct LR as (l & L1 & [(-> & _)|(_ & N & _)]); [exact L1|]. destruct S1 as (_ & S1 & _). contradiction.
Qed.
Lemma part_of_stream blk hard tr E V got more : 0 <= hard -> einv blk hard tr E V -> enc_bytes tr = got ++ more ->
  exists d1 t l, instructions hard t_start got t l /\ unfinished l /\ tmatch hard (d_ctx d1) t /\ old_of (d_ctx d1) (d_ctx V) /\ bytes got.
Proof.
  intros Hh I Eq. destruct (ei_es _ _ _ _ _ I) as (Be & Iv & Sv & Run). specialize (Run [] ltac:(constructor)). rewrite app_nil_r in Run.
  change (es_run V []) with (@ROk dec unit V []) in Run. rewrite Eq in Be. apply bytes_app in Be as [Bg Bm]. rewrite Eq, es_run_app in Run; auto; [|apply es_inv_init; auto].
  pose proof (es_run_rfc hard got (dec_init hard blk) t_start (es_inv_init hard blk Hh) eq_refl (tmatch_init hard blk Hh) Bg) as RF.
  destruct (es_run (dec_init hard blk) got) as [d1 ev|d1 r ev|e d1 ev|]; try discriminate; try (destruct RF; fail). destruct RF as (t & l & R1 & R2 & R3).
  pose proof (es_run_old d1 more) as Od. destruct (es_run d1 more) as [d' ev'|d' r' ev'|e' d' ev'|]; cbn [rev_] in Run; try discriminate. injection Run as -> _.
  exists d1, t, l. auto.
Qed.
Theorem outstanding_rfc (blk hard : Z) ops E tr s got more t l : 0 <= hard < 2 ^ 62 -> Forall eop_ok ops -> zlen (submitted ops) < 2 ^ 62 - 2 -> erun (enc_init hard) ops = Some (E, tr) ->
  In s (v_out (view_of tr)) -> enc_bytes tr = got ++ more -> instructions hard t_start got t l -> unfinished l ->
  (o_ric s <= zlen (t_all t) -> field_section hard t (o_bytes s) (o_ric s) (map said (o_fields s))).
Proof.
  intros Hh Ok Sz R Ho Eq It Un Le. destruct (from_start blk hard ops E tr Hh Ok Sz R) as (V & I & _ & Nx).
  destruct (part_of_stream blk hard tr E V got more ltac:(lia) I Eq) as (d1 & t1 & l1 & I1 & U1 & M & (O1 & O2 & O3) & Bg).
  destruct (instructions_fun hard _ _ _ _ _ _ Bg I1 U1 It Un) as (-> & ->).
  destruct (outstanding_section _ _ _ _ _ _ Hh I Nx Ho) as ((_ & base & refs & Fm & At & Rr & Rm) & N0). pose proof (ei_vl _ _ _ _ _ I) as L. specialize (Rm N0).
  pose proof (vl_next _ _ _ L) as VN. pose proof Fm as (pb & rb & Es & W & Hb & Em & Bd & _). rewrite Es. exists base, rb.
  assert (Rc : 0 <= o_ric s < 2 ^ 62) by lia.
  split; [apply (prefix_rfc hard (o_ric s) base rb (zlen (t_all t)) Hh Rc Hb ltac:(intros _; apply Rm)); [|exact W]; right; rewrite <- (tm_next _ _ _ M) in *; lia|]. split; [exact Le|].
  rewrite <- expect_all. rewrite <- (tm_next _ _ _ M) in Le. apply (body_lines_tab base refs rb _ (d_ctx d1) (absolute t) (o_ric s) Bd (tmatch_smatch _ _ _ M)); [lia|lia|].
  unfold refs_in. rewrite Forall_forall in *. intros x Hx. assert (Y : fst x + 1 <= o_ric s) by (rewrite Em; exact (proj1 (proj2 (fmax_spec refs 0)) x Hx)).
  split; [lia|]. apply O3; [|lia]. apply (vlink_at _ _ _ _ _ L). auto.
Qed.

(* ---- the reading is the only one ---- *)
Lemma lines_fun dyn ric base l q1 r1 : field_lines dyn ric base l q1 r1 -> bytes l -> forall q2 r2, field_lines dyn ric base l q2 r2 ->
  (exists x, q2 = q1 ++ x /\ field_lines dyn ric base r1 x r2) \/ (exists x, q1 = q2 ++ x /\ field_lines dyn ric base r2 x r1).
Proof.
  induction 1 as [l|l q m qs r A B IH]; intros Bl q2 r2 F.
  - left. exists q2. auto.
  - inversion F as [l'|l' q' m' qs' r' A' B']; subst.
    + right. exists (q :: qs). split; [reflexivity|]. econstructor; eauto.
    + destruct (field_line_fun _ _ _ _ _ _ _ _ Bl A A') as (<- & <-). destruct (IH (field_line_bytes _ _ _ _ _ _ Bl A) _ _ B') as [(x & -> & X)|(x & -> & X)]; [left|right]; exists x; auto.
Qed.
Lemma lines_len dyn ric base l q r : field_lines dyn ric base l q r -> (length r + length q <= length l)%nat.
Proof. induction 1 as [l|l q m qs r A B IH]; cbn; [lia|]. pose proof (field_line_len _ _ _ _ _ _ A). lia. Qed.
Lemma prefix_fun max n l ric base r ric' base' r' : 0 <= max -> 0 <= n -> bytes l -> section_prefix max n l ric base r -> section_prefix max n l ric' base' r' -> ric = ric' /\ base = base' /\ r = r'.
Proof.
  intros Hm Hn B. set (c := mk_ctx [] 0 0 max max 0 n false).
  assert (O : ctx_ok c). { split; [constructor; cbn; try constructor; lia|cbn; lia]. }
  intros P Q. exact (section_prefix_fun c l ric base r ric' base' r' O B P Q).
Qed.
Lemma says_only max H sec ric hs : 0 <= max -> bytes sec -> section_says max H sec ric hs ->
  forall n ric' base' m' qs, 0 <= n -> ric = 0 \/ n - max / 32 < ric <= n + max / 32 -> section_prefix max n sec ric' base' m' -> field_lines (numbered H) ric' base' m' qs [] ->
  ric' = ric /\ qs = map said hs.
Proof.
  intros Hm B (base & m & P & R & L) n ric' base' m' qs Hn Hw P' L'. destruct (prefix_fun max n sec ric base m ric' base' m' Hm Hn B (P n Hw) P') as (<- & <- & <-).
  split; [reflexivity|]. assert (Bm : bytes m). { destruct (P n Hw) as (enc & b & t & de & _ & A1 & _ & A2 & _). eapply an_int_bytes; [|exact A2]. eapply an_int_bytes; [exact B|exact A1]. }
  destruct (lines_fun _ _ _ _ _ _ L Bm _ _ L') as [(x & -> & X)|(x & E & X)]; apply lines_len in X; cbn in X; destruct x as [|y x]; cbn in X; try lia; [apply app_nil_r|rewrite E; symmetry; apply app_nil_r].
Qed.
Lemma says_shrink max H X sec ric hs : section_says max (H ++ X) sec ric hs -> ric <= zlen H -> section_says max H sec ric hs.
Proof.
  intros (base & m & P & R & L) Le. exists base, m. split; [exact P|]. split; [lia|].
  assert (G : forall l qs r, field_lines (numbered (H ++ X)) ric base l qs r -> field_lines (numbered H) ric base l qs r).
  { induction 1 as [l|l q k qs r A B IH]; [constructor|]. econstructor; [|exact IH]. eapply field_line_dyn; [|exact A]. intros i f Hi. apply numbered_back. lia. }
  apply G. exact L.
Qed.
Lemma section_bytes blk hard tr E V id hs sec eb ric : einv blk hard tr E V -> In (EEncode id hs, ErSection sec eb ric) tr -> bytes sec.
Proof. intros I Hi. pose proof (ei_sec _ _ _ _ _ I) as F. rewrite Forall_forall in F. exact (proj1 (F _ Hi)). Qed.
