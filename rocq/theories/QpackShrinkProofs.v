(* Capacity changes of the QPACK encoder: nghttp3_qpack_encoder_shrink_dtable and
   nghttp3_qpack_encoder_process_dtable_update against a receiver of the instructions. *)
From Verif Require Import Base BaseLemmas Tables ConvProofs QpackIntModel QpackIntSpec QpackIntProofs
  HuffModel HuffSpec HuffProofs QpackTabModel QpackTabSpec QpackTabProofs QpackDynSpec QpackDynProofs
  Chunk QpackDecModel QpackReadProofs QpackDecProofs QpackSecProofs QpackHistModel QpackHistProofs QpackCutProofs QpackEncModel
  QpackWireProofs QpackEncSpec QpackEncProofs QpackNvProofs QpackNvsProofs.

Lemma shrink_loop_spec cap mn next sum : 0 <= cap -> forall t, tab_at next sum t ->
  (forall m, mn = Some m -> next - zlen t <= m - 1 < next) ->
  exists t' u, shrink_loop (rev t) (tsize t) cap mn = Ok (rev t', tsize t') /\ t = t' ++ u /\
    (tsize t' <= cap \/ t' <> [] /\ mn = Some (next - zlen t' + 1)) /\
    (forall m, m <= cap -> fit t m = fit t' m) /\
    (forall m, mn = Some m -> next - zlen t' <= m - 1 < next).
Proof.
  intros Hc. induction t as [|x t IH] using rev_ind; intros T M.
  - exists [], []. cbn [rev app shrink_loop]. rewrite tsize_nil. destruct (Z.gtb_spec 0 cap); [lia|].
    split; [reflexivity|]. split; [reflexivity|]. split; [left; lia|]. split; auto.
  - rewrite rev_app_distr. cbn [rev app]. cbn [shrink_loop]. destruct (Z.gtb_spec (tsize (t ++ [x])) cap).
    + assert (Xa : e_abs x = next - zlen (t ++ [x])).
      { destruct (tab_at_nth _ _ _ (length t) x T) as (A & _); [rewrite nth_error_app2, Nat.sub_diag; auto|].
        rewrite zlen_app, zlen_cons, zlen_nil. unfold zlen. lia. }
      rewrite Xa. rewrite zlen_app, zlen_cons, zlen_nil in *.
      assert (Sz : tsize (t ++ [x]) - ent_space x = tsize t).
      { rewrite tsize_app, tsize_cons, tsize_nil. lia. }
      assert (Rec : (forall m, mn = Some m -> next - zlen t <= m - 1 < next) ->
        exists t' u, shrink_loop (rev t) (tsize (t ++ [x]) - ent_space x) cap mn = Ok (rev t', tsize t') /\ t ++ [x] = t' ++ u /\
        (tsize t' <= cap \/ t' <> [] /\ mn = Some (next - zlen t' + 1)) /\
        (forall m, m <= cap -> fit (t ++ [x]) m = fit t' m) /\
        (forall m, mn = Some m -> next - zlen t' <= m - 1 < next)).
      { intros M'. rewrite Sz. destruct (IH (tab_at_prefix _ _ _ _ T) M') as (t' & u & E1 & E2 & E3 & E4 & E5).
        exists t', (u ++ [x]). split; [exact E1|]. split; [rewrite E2, app_assoc; auto|]. split; [exact E3|]. split; [|exact E5].
        intros m Hm. rewrite fit_last by lia. auto. }
      destruct mn as [m|].
      * destruct (Z.eqb_spec (next - (zlen t + (1 + 0)) + 1) m) as [Em|Em].
        -- exists (t ++ [x]), []. split; [rewrite rev_app_distr; reflexivity|]. split; [rewrite app_nil_r; auto|].
           split; [right; split; [destruct t; discriminate|]|].
           { rewrite zlen_app, zlen_cons, zlen_nil. f_equal. lia. }
           split; [auto|]. rewrite zlen_app, zlen_cons, zlen_nil. exact M.
        -- apply Rec. intros m' E. injection E as <-. specialize (M m eq_refl). lia.
      * apply Rec. discriminate.
    + exists (t ++ [x]), []. split; [rewrite rev_app_distr; reflexivity|]. split; [rewrite app_nil_r; auto|].
      split; [left; lia|]. split; [auto|]. exact M.
Qed.

Lemma shrink_spec c mn : ctx_wf c -> (forall m, mn = Some m -> inr c m) ->
  exists c' u, shrink c mn = Ok c' /\ ctx_wf c' /\ dtable c = dtable c' ++ u /\
    (dtable_size c' <= max_cap c' \/ stuck c' mn) /\
    (forall m, m <= max_cap c -> fit (dtable c) m = fit (dtable c') m) /\
    (forall m, mn = Some m -> inr c' m) /\
    max_cap c' = max_cap c /\ hard_max c' = hard_max c /\ next_absidx c' = next_absidx c /\
    max_blocked c' = max_blocked c /\ bad c' = bad c.
Proof.
  intros W M. unfold shrink. destruct W as [S T C]. rewrite S.
  destruct (shrink_loop_spec (max_cap c) mn (next_absidx c) (dtable_sum c) ltac:(lia) (dtable c) T M) as (t' & u & E1 & E2 & E3 & E4 & E5).
  rewrite E1. cbn [obind]. eexists _, u. split; [reflexivity|]. cbn [dtable dtable_size max_cap hard_max next_absidx max_blocked bad].
  rewrite rev_involutive. split.
  { constructor; cbn [dtable dtable_size dtable_sum max_cap hard_max next_absidx]; rewrite ?rev_involutive; auto.
    rewrite E2 in T. eapply tab_at_prefix; eauto. }
  split; [auto|]. split.
  { destruct (Z.le_gt_cases (tsize t') (max_cap c)) as [H|H]; [left; auto|]. destruct E3 as [E3|[E3 E3']]; [lia|]. right.
    unfold stuck. cbn [dtable dtable_size max_cap next_absidx]. rewrite ?rev_involutive. split; [lia|]. auto. }
  split; [auto|]. split; [|auto 10].
  intros m Hm. unfold inr. cbn [dtable next_absidx]. rewrite ?rev_involutive. auto.
Qed.

(* a receiver [V] that has executed everything sent, against the encoder *)
Record vlink (hard : Z) (V : dec) (e : enc) : Prop := {
  vl_inv : es_inv V; vl_st : d_state V = EsOpcode; vl_hv : hard_max (d_ctx V) = hard; vl_he : hard_max (enc_ctx e) = hard;
  vl_wf : ctx_wf (enc_ctx e);
  vl_next : next_absidx (d_ctx V) = next_absidx (enc_ctx e);
  vl_pre : exists t, contents (d_ctx V) = contents (enc_ctx e) ++ t;
  vl_evict : forall m, m <= max_cap (enc_ctx e) -> rfc_evict (contents (d_ctx V)) m = rfc_evict (contents (enc_ctx e)) m;
  vl_pend : if enc_pending e then max_cap (enc_ctx e) = enc_minupd e /\ enc_minupd e <= enc_lastupd e <= hard
            else sync (d_ctx V) (enc_ctx e) /\ enc_minupd e = size_max }.

Lemma vlink_init hard blocked : 0 <= hard -> vlink hard (dec_init hard blocked) (enc_init hard).
Proof.
  intros H. assert (ctx_ok (ctx_init hard 0)) by (apply ctx_ok_init; auto). assert (ctx_ok (ctx_init hard blocked)) by (apply ctx_ok_init; auto).
  constructor; cbn; auto.
  - apply es_inv_init; auto.
  - apply ctx_ok_init; auto.
  - exists []. auto.
  - split; [constructor; auto|auto].
Qed.

Lemma vlink_set_cap hard V e n : 0 <= n -> 0 <= hard < 2 ^ 62 -> vlink hard V e -> vlink hard V (enc_set_cap e n).
Proof.
  intros Hn Hh [I S HV HE W N P Ev Pd]. unfold enc_set_cap. rewrite HE.
  assert (Sm : size_max > hard) by (unfold size_max, u64_max; lia).
  destruct (Z.eqb_spec (max_cap (enc_ctx e)) (Z.min n hard)); [constructor; auto|].
  assert (W2 : ctx_wf (ctx_set_cap (enc_ctx e) (Z.min n hard))).
  { destruct W as [A B C]. constructor; auto. cbn [ctx_set_cap max_cap hard_max]. lia. }
  destruct (Z.gtb_spec (enc_minupd e) (Z.min n hard)).
  - constructor; cbn [en_set_upd enc_ctx enc_pending enc_minupd enc_lastupd ctx_set_cap hard_max next_absidx max_cap]; auto.
    + unfold contents. cbn [ctx_set_cap dtable]. intros m Hm. destruct (enc_pending e).
      * apply Ev. lia.
      * destruct Pd as [Sy _]. pose proof (sy_tab _ _ Sy) as St. unfold contents in St. rewrite St. auto.
    + lia.
  - constructor; cbn [en_set_upd enc_ctx enc_pending enc_minupd enc_lastupd]; auto.
    destruct (enc_pending e); [lia|]. destruct Pd as [_ Pd]. lia.
Qed.

Lemma write_set_cap_ok n : 0 <= n < 2 ^ 62 -> write_set_cap n = Ok (q_put_varint 32 n 5).
Proof. intros H. apply write_number_ok; [lia|unfold is_byte; lia|auto]. Qed.
(* one capacity instruction *)
Lemma setcap_to V n : es_inv V -> d_state V = EsOpcode -> 0 <= n <= hard_max (d_ctx V) -> hard_max (d_ctx V) < 2 ^ 62 ->
  exists V', es_to V (q_put_varint 32 n 5) V' /\ contents (d_ctx V') = rfc_evict (contents (d_ctx V)) n /\
    max_cap (d_ctx V') = n /\ next_absidx (d_ctx V') = next_absidx (d_ctx V) /\ hard_max (d_ctx V') = hard_max (d_ctx V) /\
    bad (d_ctx V') = bad (d_ctx V).
Proof.
  intros I S H Hh. pose proof (dec_set_cap_spec (d_ctx V) n (proj1 I) ltac:(lia)) as D.
  destruct (Z.gtb_spec n (hard_max (d_ctx V))); [lia|]. destruct D as (c & E & Ok_ & T & M & N & Hd & B & _).
  exists (d_at V OpSetCap c). split.
  { split; [apply put_zlen; [lia|unfold is_byte; lia|lia]|]. split; [apply es_inv_at; auto|]. split; [reflexivity|].
    intros rest Br. apply es_setcap; auto. lia. }
  cbn [d_at d_ctx]. split; [|auto]. unfold contents. rewrite T. apply fit_rfc.
Qed.

Lemma evict_all t room : tab_size t <= room -> rfc_evict t room = t.
Proof.
  revert room. induction t as [|f t IH]; intros room H; cbn [rfc_evict tab_size] in *; [reflexivity|].
  pose proof (tab_size_nonneg t). destruct (Z.leb_spec (fld_size f) room); [|lia]. rewrite IH by lia. reflexivity.
Qed.
Lemma evict_in t room f : In f (rfc_evict t room) -> In f t.
Proof.
  revert room. induction t as [|x t IH]; intros room H; cbn [rfc_evict] in *; [destruct H|].
  destruct (_ <=? _); [|destruct H]. destruct H as [->|H]; [left; auto|right; eauto].
Qed.

Record updated (e e' : enc) : Prop := {
  ud_str : enc_streams e' = enc_streams e; ud_blk : enc_blocked e' = enc_blocked e; ud_k : enc_krcnt e' = enc_krcnt e;
  ud_next : next_absidx (enc_ctx e') = next_absidx (enc_ctx e); ud_mb : max_blocked (enc_ctx e') = max_blocked (enc_ctx e);
  ud_bad : bad (enc_ctx e') = bad (enc_ctx e);
  ud_rd : enc_reading e' = enc_reading e /\ enc_op e' = enc_op e /\ enc_left e' = enc_left e /\ enc_shift e' = enc_shift e /\
          enc_prefix e' = enc_prefix e /\ enc_unint e' = enc_unint e;
  ud_pre : exists u, contents (enc_ctx e) = contents (enc_ctx e') ++ u }.
Lemma process_update_spec hard V e : 0 <= hard < 2 ^ 62 -> vlink hard V e -> (forall m, gmin e = Some m -> inr (enc_ctx e) m) ->
  exists e' eb V', process_update e = Ok (e', eb) /\ es_to V eb V' /\ vlink hard V' e' /\ linked V' (enc_ctx e') (gmin e) /\
    updated e e' /\ (forall m, gmin e = Some m -> inr (enc_ctx e') m) /\
    (forall f, In f (contents (d_ctx V')) -> In f (contents (d_ctx V))) /\ bad (d_ctx V') = bad (d_ctx V).
Proof.
  intros Hh [I S HV HE W N P Ev Pd] G. unfold process_update.
  destruct (shrink_spec (enc_ctx e) (gmin e) W G) as (c & u & E & Wc & D & St & Ft & G' & Mc & Hc & Nc & Bc & Dc).
  rewrite E. cbn [obind].
  assert (Pre : exists t, contents (d_ctx V) = contents c ++ t).
  { destruct P as (t & P). unfold contents in *. rewrite D, map_app, <- app_assoc in P. eauto. }
  assert (Pre2 : exists x, contents (enc_ctx e) = contents c ++ x).
  { unfold contents. rewrite D, map_app. eauto. }
  assert (Evc : forall m, m <= max_cap c -> rfc_evict (contents (d_ctx V)) m = rfc_evict (contents c) m).
  { intros m Hm. rewrite Ev by lia. unfold contents. rewrite <- !fit_rfc, Ft by lia. reflexivity. }
  destruct (max_cap c <? dtable_size c) eqn:Sz; [|destruct (enc_pending e) eqn:Pe].
  - cbn [orb]. apply Z.ltb_lt in Sz. destruct St as [St|St]; [lia|].
    exists (en_set_ctx e c), [], V. split; [auto|]. split; [apply es_to_refl; auto|].
    cbn [en_set_ctx enc_ctx]. split; [|split; [right; auto|split; [constructor; auto 10|split; [auto|split; [auto|reflexivity]]]]].
    constructor; cbn [en_set_ctx enc_ctx enc_pending enc_minupd enc_lastupd]; auto; try congruence.
    destruct (enc_pending e); [rewrite Mc; auto|]. destruct Pd as [Sy Pd]. exfalso.
    pose proof (proj2 (sy_c _ _ Sy)) as Z1. rewrite (wf_size _ W), D, tsize_app in Z1. pose proof (tsize_nonneg u).
    rewrite (wf_size _ Wc) in Sz. lia.
  - cbn [orb negb]. apply Z.ltb_ge in Sz. destruct Pd as [Pd1 Pd2]. destruct (wf_cap _ W) as [Cp1 Cp2].
    set (mn := enc_minupd e) in *. set (lst := enc_lastupd e) in *.
    assert (Ec : rfc_evict (contents c) mn = contents c).
    { apply evict_all. rewrite <- tsize_contents, <- (wf_size _ Wc). lia. }
    assert (Q : exists b1 V1, (if mn <? lst then write_set_cap mn else Ok []) = Ok b1 /\ es_to V b1 V1 /\
       rfc_evict (contents (d_ctx V1)) lst = contents c /\ next_absidx (d_ctx V1) = next_absidx (d_ctx V) /\ hard_max (d_ctx V1) = hard /\
       (forall f, In f (contents (d_ctx V1)) -> In f (contents (d_ctx V))) /\ bad (d_ctx V1) = bad (d_ctx V)).
    { destruct (Z.ltb_spec mn lst).
      - rewrite write_set_cap_ok by lia. destruct (setcap_to V mn I S) as (V1 & T1 & T2 & T3 & T4 & T5 & T6); [lia|lia|].
        exists (q_put_varint 32 mn 5), V1. split; [auto|]. split; [auto|]. rewrite T2, Evc by lia. rewrite Ec. split.
        + apply evict_all. rewrite <- tsize_contents, <- (wf_size _ Wc). lia.
        + split; [auto|]. split; [congruence|]. split; [|auto]. intros f Hf. destruct Pre as (t & ->). apply in_or_app. auto.
      - exists [], V. split; [auto|]. split; [apply es_to_refl; auto|]. assert (lst = mn) by lia. subst lst. split; [|auto].
        rewrite H0, Evc by lia. auto. }
    destruct Q as (b1 & V1 & Q1 & Q2 & Q3 & Q4 & Q5 & Q6 & Q7). rewrite Q1. cbn [obind].
    rewrite write_set_cap_ok by lia. cbn [obind].
    destruct (setcap_to V1 lst) as (V2 & T1 & T2 & T3 & T4 & T5 & T6); [apply Q2|apply Q2|lia|lia|].
    exists (en_set_upd e (ctx_set_cap c lst) false size_max lst), (b1 ++ q_put_varint 32 lst 5), V2.
    split; [auto|]. split; [eapply es_to_trans; eauto|].
    assert (Wl : ctx_ok (ctx_set_cap c lst)).
    { split; [|cbn; lia]. destruct Wc as [A B C]. constructor; auto. cbn [ctx_set_cap max_cap hard_max]. lia. }
    assert (Sy : sync (d_ctx V2) (ctx_set_cap c lst)).
    { constructor; auto.
      - apply T1.
      - cbn [ctx_set_cap next_absidx]. congruence.
      - cbn [ctx_set_cap hard_max]. congruence.
      - rewrite T2, Q3. reflexivity. }
    split; [|split; [left; exact Sy|split; [|split; [exact G'|split; [|congruence]]]]].
    + constructor; cbn [en_set_upd enc_ctx enc_pending enc_minupd enc_lastupd ctx_set_cap hard_max next_absidx]; auto; try congruence.
      * apply T1.
      * apply T1.
      * apply Wl.
      * exists []. rewrite app_nil_r. apply (sy_tab _ _ Sy).
      * intros m _. rewrite (sy_tab _ _ Sy). reflexivity.
    + constructor; cbn [en_set_upd enc_ctx enc_streams enc_blocked enc_krcnt enc_reading enc_op enc_left enc_shift enc_prefix enc_unint ctx_set_cap next_absidx max_blocked bad]; auto 10.
    + intros f Hf. rewrite T2 in Hf. apply evict_in in Hf. auto.
  - cbn [orb negb]. apply Z.ltb_ge in Sz. destruct Pd as [Sy Pd].
    assert (Eq : contents c = contents (enc_ctx e)).
    { unfold contents. rewrite <- (fit_all (dtable c) (max_cap c)), <- Ft; [|lia|rewrite <- (wf_size _ Wc); lia].
      rewrite fit_all; [auto|]. rewrite <- (wf_size _ W), Mc. apply Sy. }
    assert (Sy' : sync (d_ctx V) c).
    { destruct Sy as [A B C D' F H]. constructor; auto; try congruence. split; [auto|lia]. }
    exists (en_set_ctx e c), [], V. split; [auto|]. split; [apply es_to_refl; auto|]. cbn [en_set_ctx enc_ctx].
    split; [|split; [left; auto|split; [constructor; auto 10|split; [auto|split; [auto|reflexivity]]]]].
    constructor; cbn [en_set_ctx enc_ctx enc_pending enc_minupd enc_lastupd]; auto; try congruence. rewrite Pe. auto.
Qed.
