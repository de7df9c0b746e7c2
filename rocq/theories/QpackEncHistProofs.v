(* Histories of calls of the QPACK encoder. *)
From Verif Require Import Base BaseLemmas Tables ConvProofs QpackIntModel QpackIntSpec QpackIntProofs
  HuffModel HuffSpec HuffProofs QpackTabModel QpackTabSpec QpackTabProofs QpackDynSpec QpackDynProofs
  Chunk QpackDecModel QpackReadProofs QpackDecProofs QpackSecProofs QpackHistModel QpackHistSpec QpackHistProofs QpackCutProofs QpackEncModel
  QpackWireProofs QpackEncSpec QpackEncProofs QpackNvProofs QpackNvsProofs QpackShrinkProofs QpackStreamProofs QpackFeedProofs QpackEvolveProofs.

Lemma prefix_ok hard ric base : 0 <= hard < 2 ^ 62 -> 0 <= ric < 2 ^ 62 -> 0 <= base < 2 ^ 62 -> (ric <> 0 -> 0 < hard / 32) ->
  let enc := if ric =? 0 then 0 else ric mod (2 * (hard / 32)) + 1 in
  let sign := base <? ric in
  let delta := if sign then ric - base - 1 else base - ric in
  let pb := q_put_varint 0 enc 8 ++ q_put_varint (if sign then 128 else 0) delta 7 in
  0 <= enc < 2 ^ 62 /\ write_prefix hard ric base = Ok pb /\ bytes pb /\ forall rest, after_prefix (pb ++ rest) = Some rest.
Proof.
  intros Hh Hr Hb Hm enc sign delta pb.
  assert (He : 0 <= enc < 2 ^ 62).
  { unfold enc. destruct (Z.eqb_spec ric 0); [lia|]. specialize (Hm n).
    pose proof (Z.mod_pos_bound ric (2 * (hard / 32)) ltac:(lia)). pose proof (Z.mul_div_le hard 32 ltac:(lia)). lia. }
  assert (Hd : 0 <= delta < 2 ^ 62) by (unfold delta, sign; destruct (Z.ltb_spec base ric); lia).
  destruct (put_zlen 8 0 enc ltac:(lia) ltac:(unfold is_byte; lia) He) as (P1 & P2 & P3).
  assert (Hf : is_byte (if sign then 128 else 0)) by (unfold is_byte; destruct sign; lia).
  destruct (put_zlen 7 (if sign then 128 else 0) delta ltac:(lia) Hf Hd) as (Q1 & Q2 & Q3).
  split; [auto|]. split; [|split].
  - unfold write_prefix. replace (negb (ric =? 0) && (2 * (hard / 32) =? 0)) with false.
    + cbv zeta. fold enc sign delta. unfold wrote. rewrite zlen_app, P1, Q1, Z.eqb_refl. reflexivity.
    + destruct (Z.eqb_spec ric 0); [reflexivity|]. specialize (Hm n). destruct (Z.eqb_spec (2 * (hard / 32)) 0); [lia|reflexivity].
  - apply bytes_app. auto.
  - intros rest. unfold after_prefix, pb. rewrite <- app_assoc, P3. unfold after_int. rewrite Q3. reflexivity.
Qed.

Record enc_ok (hard : Z) (V : dec) (e : enc) (v : view) (id : Z) (l : list nv) (e' : enc) (sec eb : list Z) (ric : Z) (V' : dec) : Prop := {
  eo_es : es_to V eb V'; eo_vl : vlink hard V' e'; eo_ds : ds_inv e';
  eo_rl : rlink hard e' (view_step v (EEncode id l, ErSection sec eb ric));
  eo_next : next_absidx (enc_ctx e) <= next_absidx (enc_ctx e') <= next_absidx (enc_ctx e) + zlen l;
  eo_in : forall f, In f (contents (d_ctx V')) -> In f (contents (d_ctx V)) \/ exists h, In h l /\ sensitive h = false /\ f = (nv_name h, nv_value h);
  eo_bl : zlen (enc_blocked e') <= Z.max (zlen (enc_blocked e)) (max_blocked (enc_ctx e));
  eo_rd : forall pre, rdlink e pre -> rdlink e' pre;
  eo_mb : max_blocked (enc_ctx e') = max_blocked (enc_ctx e);
  eo_bad : bad (enc_ctx e') = bad (enc_ctx e);
  eo_link : linked V' (enc_ctx e') (gmin e);
  eo_form : exists base refs, sec_form hard sec ric base refs l /\ Forall (fun x => at_index (enc_ctx e') (fst x) (snd x)) refs;
  eo_lines : exists r ks, after_prefix sec = Some r /\ rfc_lines r ks /\ Forall2 line_good l ks;
  eo_bytes : bytes sec; eo_ric : 0 <= ric }.

Lemma table_some c i f : at_index c i f -> exists x t, contents c = x :: t.
Proof. intros [A B]. destruct (contents c) as [|x t]; [destruct (Z.to_nat _); discriminate|eauto]. Qed.
Lemma fld_min f : 32 <= fld_size f.
Proof. destruct f as [n v]. unfold fld_size. pose proof (zlen_nonneg _ n). pose proof (zlen_nonneg _ v). cbn [fst snd]. lia. Qed.
Lemma tab_nonneg t : 0 <= tab_size t.
Proof. induction t as [|f t IH]; cbn [tab_size]; [lia|]. pose proof (fld_min f). lia. Qed.
Lemma tab_app a b : tab_size (a ++ b) = tab_size a + tab_size b.
Proof. induction a as [|f a IH]; cbn [tab_size app]; [lia|]. lia. Qed.
Lemma vlink_room hard V e i f : vlink hard V e -> at_index (enc_ctx e) i f -> 0 < hard / 32.
Proof.
  intros L A. destruct (table_some _ _ _ A) as (x & t & E). destruct (vl_pre _ _ _ L) as [u U].
  destruct (vl_inv _ _ _ L) as [[Wv Sv] _]. pose proof (wf_size _ Wv) as Z1. rewrite tsize_contents, U, E in Z1. cbn [tab_size app] in Z1.
  pose proof (fld_min x). pose proof (tab_nonneg (t ++ u)). pose proof (wf_cap _ Wv). rewrite (vl_hv _ _ _ L) in *.
  apply Z.div_str_pos. lia.
Qed.

Lemma encode_body_done hard V e v id l : 0 <= hard < 2 ^ 62 -> vlink hard V e -> ds_inv e -> rlink hard e v -> Forall field_ok l ->
  next_absidx (enc_ctx e) + zlen l < 2 ^ 62 - 2 ->
  exists e' sec eb ric V', encode_body e id l = Ok (e', (sec, eb, ric)) /\ enc_ok hard V e v id l e' sec eb ric V'.
Proof.
  intros Hh L [Ds Rd] R F Hn. destruct (process_update_spec hard V e Hh L (gmin_inr e Ds)) as (e1 & eb0 & V1 & Up & T1 & L1 & K1 & U & G1 & C1 & B1).
  unfold encode_body. rewrite Up. cbn [obind]. set (base := next_absidx (enc_ctx e1)).
  set (allow := is_blocked e1 (find_stream (enc_streams e1) id) || (max_blocked (enc_ctx e1) >? zlen (enc_blocked e1))).
  assert (Gm : gmin e1 = gmin e) by (unfold gmin; rewrite (ud_str _ _ U); auto).
  assert (Nx : next_absidx (enc_ctx e1) = next_absidx (enc_ctx e)) by apply U.
  assert (N0 : 0 <= next_absidx (enc_ctx e)) by (pose proof (si_k _ _ _ _ Ds); lia).
  assert (Hl : 0 <= zlen l) by apply zlen_nonneg.
  assert (Pr : nv_pre V1 (gmin e) base (mk_acc (enc_ctx e1) 0 u64_max [] eb0)).
  { constructor; cbn [a_ctx a_min]; auto; try apply L1; unfold base; rewrite ?Nx; pose proof (zlen_nonneg _ l); lia. }
  rewrite Gm. destruct (encode_nvs_done (enc_krcnt e1) base (gmin e) allow (zlen (enc_streams e1)) V1 (enc_ctx e1) eb0 l F Pr ltac:(rewrite Nx; auto)) as (a & V2 & refs & ks & Ea & I).
  rewrite Ea. cbn [obind]. destruct (ni_eb _ _ _ _ _ _ _ _ _ _ _ _ I) as (eb & Eeb & T2).
  pose proof (ni_evo _ _ _ _ _ _ _ _ _ _ _ _ I) as Ev. pose proof (ni_pre _ _ _ _ _ _ _ _ _ _ _ _ I) as P2.
  pose proof (ni_refs _ _ _ _ _ _ _ _ _ _ _ _ I) as Rf.
  set (e2 := en_set_unint (en_set_ctx e1 (a_ctx a)) 0).
  assert (T : es_to V (a_eb a) V2) by (rewrite Eeb; eapply es_to_trans; eauto).
  assert (Gi : forall m, gmin e = Some m -> inr (a_ctx a) m) by apply P2.
  assert (He2 : hard_max (a_ctx a) = hard) by (rewrite (ev_hard _ _ _ _ Ev); apply L1).
  assert (L2 : vlink hard V2 e2).
  { destruct (ni_tab _ _ _ _ _ _ _ _ _ _ _ _ I) as [[X1 X2]|[X1 X2]].
    - unfold e2. destruct L1. constructor; cbn [en_set_unint en_set_ctx enc_ctx enc_pending enc_minupd enc_lastupd]; rewrite ?X1, ?X2; auto; try apply P2.
    - unfold e2. constructor; cbn [en_set_unint en_set_ctx enc_ctx enc_pending enc_minupd enc_lastupd]; try apply P2; auto.
      + rewrite (sy_hard _ _ X2). auto.
      + apply X2.
      + exists []. rewrite app_nil_r. apply X2.
      + intros m _. rewrite (sy_tab _ _ X2). auto.
      + pose proof (vl_pend _ _ _ L1) as Pd. rewrite (ev_max _ _ _ _ Ev). destruct (enc_pending e1); [auto|]. split; [auto|apply Pd]. }
  (* sections sent before *)
  assert (Kp : forall i mx mn s, In (mx, mn) (refs_of (enc_streams e) i) -> out_link hard (enc_ctx e) (mx, mn) s -> out_link hard (a_ctx a) (mx, mn) s).
  { intros i mx mn s Hi [O1 (b & rs & O2 & O3 & O4)]. split; [auto|]. exists b, rs. split; [auto|]. split; [auto|].
    destruct (proj1 (gmin_spec e (si_nd _ _ _ _ Ds)) _ _ Hi) as (m & M1 & M2). cbn [snd] in *.
    rewrite Forall_forall in *. intros x Hx. specialize (O4 x Hx).
    assert (Hm : m - 1 <= fst x) by (pose proof (proj1 (proj2 (fmin_spec rs u64_max)) x Hx); lia).
    apply (ev_keep _ _ _ _ Ev); [|left; exists m; auto].
    destruct (ud_pre _ _ U) as [u Pu]. eapply at_prefix_keep; [| |  |exact O4]; eauto.
    pose proof (G1 _ M1) as [Q1 Q2]. lia. }
  assert (S2 : sinv (enc_streams e) (enc_blocked e) (enc_krcnt e) (a_ctx a)).
  { eapply sinv_ctx; eauto.
    - pose proof (ev_next _ _ _ _ Ev). lia.
    - intros i mx mn Hi. destruct (proj1 (gmin_spec e (si_nd _ _ _ _ Ds)) _ _ Hi) as (m & M1 & M2). cbn [snd] in *.
      destruct (Gi _ M1) as [Q1 Q2]. destruct (si_refs _ _ _ _ Ds _ _ _ Hi) as (Q3 & Q4 & Q5 & Q6). pose proof (ev_next _ _ _ _ Ev). split; lia. }
  assert (Rold : forall i, Forall2 (out_link hard (a_ctx a)) (refs_of (enc_streams e) i) (on_stream i (v_out v))).
  { intros i. pose proof (rl_out _ _ _ R i) as X. assert (Y : forall r, In r (refs_of (enc_streams e) i) -> In r (refs_of (enc_streams e) i)) by auto.
    revert X Y. generalize (refs_of (enc_streams e) i) at 1 2 4. intros rs X. induction X as [|[mx mn] s rs ss X1 X2 IH]; intros Y; [constructor|].
    constructor; [eapply Kp; eauto; apply Y; left; auto|apply IH; intros r Hr; apply Y; right; auto]. }
  (* the prefix *)
  assert (Mx : forall r, In r refs -> 0 <= fst r < next_absidx (a_ctx a)).
  { intros r Hr. rewrite Forall_forall in Rf. destruct (Rf r Hr) as [[A1 _] _]. auto. }
  pose proof (ni_max _ _ _ _ _ _ _ _ _ _ _ _ I) as Em. pose proof (ni_min _ _ _ _ _ _ _ _ _ _ _ _ I) as En.
  assert (Hric : 0 <= a_max a <= next_absidx (a_ctx a)).
  { rewrite Em. destruct (fmax_spec refs 0) as (X1 & _ & [X3|(r & X3 & X4)]); [rewrite X3; pose proof (ev_next _ _ _ _ Ev); lia|].
    pose proof (Mx r X3). lia. }
  assert (Hex : a_max a <> 0 -> exists r, In r refs).
  { intros X. rewrite Em in X. destruct (fmax_spec refs 0) as (X1 & _ & [X3|(r & X3 & X4)]); [congruence|eauto]. }
  assert (Nb : next_absidx (a_ctx a) < 2 ^ 62 - 2) by (pose proof (ev_next _ _ _ _ Ev); lia).
  assert (Hm : a_max a <> 0 -> 0 < hard / 32).
  { intros X. destruct (Hex X) as [r Hr]. rewrite Forall_forall in Rf. destruct (Rf r Hr) as [A1 _]. eapply (vlink_room hard V2 e2); eauto. }
  destruct (prefix_ok hard (a_max a) base Hh ltac:(lia) ltac:(unfold base; lia) Hm) as (_ & Wp & Bp & Ap).
  rewrite (vl_he _ _ _ L1). set (pb := q_put_varint 0 _ 8 ++ _) in *. rewrite Wp. cbn [obind].
  pose proof (ni_body _ _ _ _ _ _ _ _ _ _ _ _ I) as Bs.
  assert (Hrb : a_max a <> 0 -> a_rb a <> []).
  { intros X Y. pose proof (ni_lines _ _ _ _ _ _ _ _ _ _ _ _ I [] [] rl_nil) as Z. rewrite Y, !app_nil_r in Z. cbn [app] in Z.
    inversion Z as [|? ? ? ? Zl]; subst; [|discriminate Zl]. pose proof (ni_good _ _ _ _ _ _ _ _ _ _ _ _ I) as Gd. inversion Gd; subst.
    cbn [encode_nvs] in Ea. injection Ea as <-. cbn [a_max] in X. congruence. }
  assert (Sf : sec_form hard (pb ++ a_rb a) (a_max a) base refs l).
  { exists pb, (a_rb a). split; [auto|]. split; [auto|]. split; [unfold base; lia|]. split; [auto|]. split; [auto|]. auto. }
  assert (Fa : Forall (fun x => at_index (a_ctx a) (fst x) (snd x)) refs).
  { rewrite Forall_forall in *. intros x Hx. apply (Rf x Hx). }
  assert (Lk : linked V2 (a_ctx a) (gmin e)) by apply P2.
  assert (In2 : forall f, In f (contents (d_ctx V2)) -> In f (contents (d_ctx V)) \/ exists h, In h l /\ sensitive h = false /\ f = (nv_name h, nv_value h)).
  { intros f Hf. destruct (ni_tab _ _ _ _ _ _ _ _ _ _ _ _ I) as [[X1 X2]|[X1 X2]].
    - rewrite X2 in Hf. auto.
    - rewrite (sy_tab _ _ X2) in Hf. destruct (ev_in _ _ _ _ Ev _ Hf) as [H|H]; [|auto]. left. apply C1. rewrite (sy_tab _ _ X1). auto. }
  assert (Ln : exists r ks, after_prefix (pb ++ a_rb a) = Some r /\ rfc_lines r ks /\ Forall2 line_good l ks).
  { exists (a_rb a), ks. split; [apply Ap|]. split; [|apply I]. pose proof (ni_lines _ _ _ _ _ _ _ _ _ _ _ _ I [] [] rl_nil) as Z. rewrite !app_nil_r in Z. auto. }
  assert (Bsec : bytes (pb ++ a_rb a)) by (apply bytes_app; split; [auto|apply Bs]).
  assert (Ks : enc_krcnt e1 = enc_krcnt e) by apply U. assert (Ss : enc_streams e1 = enc_streams e) by apply U.
  assert (Bk : enc_blocked e1 = enc_blocked e) by apply U. assert (Mb : max_blocked (enc_ctx e1) = max_blocked (enc_ctx e)) by apply U.
  destruct (ud_rd _ _ U) as (Q1 & Q2 & Q3 & Q4 & Q5 & Q6).
  assert (Rk : forall e', enc_reading e' = enc_reading e1 -> enc_op e' = enc_op e1 -> enc_left e' = enc_left e1 -> enc_shift e' = enc_shift e1 -> enc_prefix e' = enc_prefix e1 ->
    (rd_ok e') /\ forall pre, rdlink e pre -> rdlink e' pre).
  { intros e' X1 X2 X3 X4 X5. unfold rd_ok, rdlink in *. rewrite X1, X2, X3, X4, X5, Q1, Q2, Q3, Q4, Q5. auto. }
  destruct (Z.eqb_spec (a_max a) 0) as [H0|H0].
  - exists e2, (pb ++ a_rb a), (a_eb a), 0, V2. split; [reflexivity|].
    destruct (Rk e2 eq_refl eq_refl eq_refl eq_refl eq_refl) as [Rk1 Rk2].
    constructor; auto; try lia.
    + split; [|auto]. unfold esinv, e2. cbn [en_set_unint en_set_ctx enc_ctx enc_streams enc_blocked enc_krcnt]. rewrite Ks, Ss, Bk. auto.
    + cbn [view_step]. rewrite Z.eqb_refl. constructor; unfold e2; cbn [en_set_unint en_set_ctx enc_ctx enc_streams enc_krcnt].
      * rewrite Ks. apply R.
      * rewrite Ss. auto.
    + unfold e2; cbn [en_set_unint en_set_ctx enc_ctx]. pose proof (ev_next _ _ _ _ Ev). lia.
    + unfold e2; cbn [en_set_unint en_set_ctx enc_blocked]. rewrite Bk. lia.
    + unfold e2; cbn [en_set_unint en_set_ctx enc_ctx]. rewrite (ev_blk _ _ _ _ Ev). auto.
    + unfold e2; cbn [en_set_unint en_set_ctx enc_ctx]. rewrite (ev_bad _ _ _ _ Ev). apply U.
    + exists base, refs. rewrite H0 in Sf. auto.
  - assert (Hmn : 1 <= a_min a <= a_max a /\ inr (a_ctx a) (a_min a)).
    { destruct (Hex H0) as [r Hr]. destruct (fmin_spec refs u64_max) as (X1 & X2 & [X3|(r' & X3 & X4)]); rewrite <- En in *.
      - pose proof (X2 r Hr). pose proof (Mx r Hr). unfold u64_max in *. lia.
      - pose proof (Mx r' X3). pose proof (X2 r Hr). pose proof (Mx r Hr). destruct (fmax_spec refs 0) as (_ & Y & _). rewrite <- Em in Y. pose proof (Y r Hr). pose proof (Y r' X3).
        split; [lia|]. rewrite X4. rewrite Forall_forall in Fa. pose proof (at_range _ _ _ (Fa r' X3)). unfold inr. lia. }
    assert (S2' : sinv (enc_streams e2) (enc_blocked e2) (enc_krcnt e2) (enc_ctx e2)).
    { unfold e2; cbn [en_set_unint en_set_ctx enc_ctx enc_streams enc_blocked enc_krcnt]. rewrite Ks, Ss, Bk. auto. }
    destruct (add_stream_ref_spec e2 id (a_max a) (a_min a) S2' ltac:(lia) ltac:(apply Hric) ltac:(apply Hmn)) as (b & Ad & S3 & Bl).
    fold e2. rewrite Ad. cbn [obind].
    set (e3 := en_set_str e2 _ b) in *.
    exists e3, (pb ++ a_rb a), (a_eb a), (a_max a), V2. split; [reflexivity|].
    destruct (Rk e3 eq_refl eq_refl eq_refl eq_refl eq_refl) as [Rk1 Rk2].
    constructor; auto; try lia.
    + unfold e3. destruct L2. constructor; auto.
    + split; [exact S3|auto].
    + cbn [view_step]. destruct (Z.eqb_spec (a_max a) 0); [lia|].
      constructor; unfold e3, e2; cbn [en_set_str en_set_unint en_set_ctx enc_ctx enc_streams enc_krcnt v_known v_out].
      * rewrite Ks. apply R.
      * intros i. unfold refs_of at 1. rewrite find_put. unfold on_stream. rewrite filter_app. cbn [filter o_id]. rewrite Ss. fold (on_stream i (v_out v)).
        destruct (Z.eqb_spec i id) as [->|Hi].
        -- rewrite Z.eqb_refl. apply Forall2_app; [apply Rold|]. constructor; [|constructor]. split; [auto|]. exists base, refs. cbn [o_bytes o_ric o_fields snd]. auto.
        -- destruct (Z.eqb_spec id i); [congruence|]. rewrite app_nil_r. apply Rold.
    + unfold e3, e2; cbn [en_set_str en_set_unint en_set_ctx enc_ctx]. pose proof (ev_next _ _ _ _ Ev). lia.
    + unfold e3 at 1; cbn [en_set_str enc_blocked]. unfold e2 in Bl; cbn [en_set_unint en_set_ctx enc_ctx enc_streams enc_blocked enc_krcnt] in Bl.
      rewrite Bk, Ks, Ss in Bl. rewrite <- Mb. destruct allow eqn:Al.
      * unfold allow in Al. rewrite Bk in Al. apply orb_true_iff in Al as [Al|Al].
        -- unfold is_blocked in Bl, Al. rewrite Ks, Ss in Al. cbn [enc_krcnt] in Bl. destruct (find_stream (enc_streams e) id); [|discriminate].
           cbn in Bl. rewrite Ks, Al in Bl. lia.
        -- apply Z.gtb_lt in Al. rewrite Mb in *. destruct (is_blocked (en_set_unint _ _) _); [lia|]. destruct (_ <? _) in Bl; lia.
      * assert (a_max a <= enc_krcnt e).
        { rewrite Em. destruct (fmax_spec refs 0) as (_ & _ & [X3|(r & X3 & X4)]); [pose proof (si_k _ _ _ _ Ds); lia|].
          rewrite Forall_forall in Rf. destruct (Rf r X3) as [_ [X5|X5]]; [discriminate|]. lia. }
        destruct (Z.ltb_spec (enc_krcnt e) (a_max a)); [lia|]. destruct (is_blocked (en_set_unint _ _) _); lia.
    + unfold e3, e2; cbn [en_set_str en_set_unint en_set_ctx enc_ctx]. rewrite (ev_blk _ _ _ _ Ev). auto.
    + unfold e3, e2; cbn [en_set_str en_set_unint en_set_ctx enc_ctx]. rewrite (ev_bad _ _ _ _ Ev). apply U.
    + exists base, refs. auto.
Qed.

(* ---- histories ---- *)
Lemma enc_bytes_app a b : enc_bytes (a ++ b) = enc_bytes a ++ enc_bytes b.
Proof. induction a as [|[o r] a IH]; cbn [enc_bytes app]; [auto|]. destruct r; rewrite ?IH, ?app_assoc; auto. Qed.
Lemma view_of_snoc tr x : view_of (tr ++ [x]) = view_step (view_of tr) x.
Proof. unfold view_of. rewrite fold_left_app. reflexivity. Qed.
Lemma submitted_app a b : submitted (a ++ b) = submitted a ++ submitted b.
Proof. induction a as [|[id l|n|n|src|] a IH]; cbn [submitted app]; rewrite ?IH, ?app_assoc; auto. Qed.
Lemma blocked_limit_app a b : 0 <= blocked_limit a /\ blocked_limit (a ++ b) = Z.max (blocked_limit a) (blocked_limit b).
Proof.
  assert (P : forall l, 0 <= blocked_limit l) by (induction l as [|[id l'|n|n|src|] l IH]; cbn [blocked_limit]; lia).
  split; [auto|]. pose proof (P b). induction a as [|[id l|n|n|src|] a IH]; cbn [blocked_limit app]; rewrite ?IH; lia.
Qed.
Lemma fed_bytes_app a b : fed_bytes (a ++ b) = fed_bytes a ++ fed_bytes b.
Proof. induction a as [|[id l|n|n|src|] a IH]; cbn [fed_bytes app]; rewrite ?IH, ?app_assoc; auto. Qed.
Lemma carried_out_app a b : carried_out (a ++ b) = carried_out a ++ carried_out b.
Proof. induction a as [|[o r] a IH]; cbn [carried_out app]; [auto|]. destruct r; rewrite ?IH, ?app_assoc; auto. Qed.

Definition sec_fact (hard : Z) (x : eop * eres) : Prop :=
  match x with
  | (EEncode id l, ErSection sec eb ric) =>
      bytes sec /\ 0 <= ric /\ (exists r ks, after_prefix sec = Some r /\ rfc_lines r ks /\ Forall2 line_good l ks) /\
      exists base refs, sec_form hard sec ric base refs l /\ Forall (fun x => 0 <= fst x) refs
  | _ => True
  end.
Record einv (blk hard : Z) (tr : list (eop * eres)) (e : enc) (V : dec) : Prop := {
  ei_es : es_to (dec_init hard blk) (enc_bytes tr) V; ei_vl : vlink hard V e; ei_ds : ds_inv e; ei_rl : rlink hard e (view_of tr);
  ei_next : next_absidx (enc_ctx e) <= zlen (submitted (map fst tr));
  ei_in : forall f, In f (contents (d_ctx V)) -> exists h, In h (submitted (map fst tr)) /\ sensitive h = false /\ f = (nv_name h, nv_value h);
  ei_bl : zlen (enc_blocked e) <= blocked_limit (map fst tr); ei_mb : max_blocked (enc_ctx e) <= blocked_limit (map fst tr);
  ei_sec : Forall (sec_fact hard) tr;
  ei_rd : no_error tr -> exists con rest, fed_bytes (map fst tr) = con ++ rest /\ rfc_dstream con (map instr_of (carried_out tr)) /\ rdlink e rest;
  ei_fb : bytes (fed_bytes (map fst tr)) }.
Lemma vlink_same hard V e e' : vlink hard V e -> enc_ctx e' = enc_ctx e \/ enc_ctx e' = ctx_bad (enc_ctx e) ->
  enc_pending e' = enc_pending e -> enc_minupd e' = enc_minupd e -> enc_lastupd e' = enc_lastupd e -> vlink hard V e'.
Proof.
  intros L0 C P M L; destruct L0. destruct C as [C|C]; constructor; rewrite ?C, ?P, ?M, ?L; auto.
  - destruct vl_wf. constructor; auto.
  - destruct (enc_pending e); auto. destruct vl_pend as [[] X]. split; [|auto]. constructor; auto. destruct sy_c as [[] ?]. split; [constructor|]; auto.
Qed.
Lemma vlink_blocked hard V e n : vlink hard V e -> vlink hard V (enc_set_blocked e n).
Proof.
  intros []. constructor; auto.
  - destruct vl_wf. constructor; auto.
  - cbn [enc_set_blocked en_set_ctx enc_pending]. destruct (enc_pending e); auto. destruct vl_pend as [[] X]. split; [|auto]. constructor; auto. destruct sy_c as [[] ?]. split; [constructor|]; auto.
Qed.
Lemma sinv_same st bl k c c' : sinv st bl k c -> next_absidx c' = next_absidx c -> dtable c' = dtable c -> sinv st bl k c'.
Proof.
  intros S N D. eapply sinv_ctx; eauto; [lia|]. intros id mx mn Hi. destruct (si_refs _ _ _ _ S _ _ _ Hi) as (_ & _ & X). unfold inr in *. rewrite N, D. auto.
Qed.
Lemma sinv_all k c : 0 <= k <= next_absidx c -> sinv [] [] k c.
Proof.
  intros H. constructor.
  - constructor.
  - discriminate.
  - intros ? ? ? [].
  - exact H.
  - intros m id. split; [intros []|]. cbn. intros [-> X]. lia.
  - constructor.
Qed.
Lemma at_same c c' i f : next_absidx c' = next_absidx c -> dtable c' = dtable c -> at_index c i f -> at_index c' i f.
Proof. intros N D. unfold at_index, contents. rewrite N, D. auto. Qed.
Lemma forall2_impl A B (P Q : A -> B -> Prop) l m : (forall a b, P a b -> Q a b) -> Forall2 P l m -> Forall2 Q l m.
Proof. intros H X. induction X; constructor; auto. Qed.
Lemma rlink_same hard e e' v : rlink hard e v -> next_absidx (enc_ctx e') = next_absidx (enc_ctx e) -> dtable (enc_ctx e') = dtable (enc_ctx e) ->
  enc_streams e' = enc_streams e -> enc_krcnt e' = enc_krcnt e -> rlink hard e' v.
Proof.
  intros [R1 R2] N D S K. constructor; [congruence|]. intros id. rewrite S. eapply forall2_impl; [|apply R2]. intros r s [O1 (b & rs & O2 & O3 & O4)].
  split; [auto|]. exists b, rs. split; [auto|]. split; [auto|]. eapply Forall_impl; [|exact O4]. intros x. apply at_same; auto.
Qed.
Lemma einv_init blk hard : 0 <= hard -> einv blk hard [] (enc_init hard) (dec_init hard blk).
Proof.
  intros H. constructor.
  - apply es_to_refl; [apply es_inv_init; auto|reflexivity].
  - apply vlink_init; auto.
  - apply ds_inv_init; auto.
  - constructor; [reflexivity|]. intros id. constructor.
  - cbn. lia.
  - intros f [].
  - cbn. lia.
  - cbn. lia.
  - constructor.
  - intros _. exists [], []. split; [reflexivity|]. split; [constructor|]. repeat split.
  - constructor.
Qed.
Lemma no_error_app a b : no_error (a ++ b) -> no_error a /\ no_error b.
Proof. intros H. split; intros o e evs X; apply (H o e evs); apply in_or_app; auto. Qed.
Lemma rdlink_unint e u pre : rdlink e pre -> rdlink (en_set_unint e u) pre. Proof. auto. Qed.

(* steps that do not touch table, streams or reader *)
Lemma einv_quiet blk hard tr e V o r e' : einv blk hard tr e V ->
  (match o with ESetCap _ | EAckAll => True | EEncode _ _ => exists x, r = ErErr x [] | ESetBlocked _ => True | EFeed _ => False end) ->
  enc_bytes [(o, r)] = [] -> carried_out [(o, r)] = [] -> vlink hard V e' -> ds_inv e' -> rlink hard e' (view_step (view_of tr) (o, r)) ->
  next_absidx (enc_ctx e') = next_absidx (enc_ctx e) -> zlen (enc_blocked e') <= zlen (enc_blocked e) ->
  max_blocked (enc_ctx e') <= Z.max (max_blocked (enc_ctx e)) (blocked_limit [o]) ->
  (forall pre, rdlink e pre -> rdlink e' pre) -> einv blk hard (tr ++ [(o, r)]) e' V.
Proof.
  intros I Ho Eb Co L D R N B M Rd. destruct I.
  pose proof (blocked_limit_app (map fst tr) [o]) as [Lp Lq].
  assert (Nb : 0 <= blocked_limit [o]) by (apply (proj1 (blocked_limit_app [o] []))).
  constructor; rewrite ?map_app, ?enc_bytes_app, ?Eb, ?app_nil_r, ?view_of_snoc, ?submitted_app, ?carried_out_app, ?Co, ?app_nil_r; cbn [map fst]; auto.
  - rewrite zlen_app. pose proof (zlen_nonneg _ (submitted [o])). lia.
  - intros f Hf. destruct (ei_in0 f Hf) as (h & H1 & H2). exists h. split; [apply in_or_app; auto|auto].
  - lia.
  - lia.
  - apply Forall_app. split; [auto|]. constructor; [|constructor]. destruct o; cbn [sec_fact]; auto. destruct Ho as [x ->]. auto.
  - intros Ne. apply no_error_app in Ne as [Ne _]. destruct (ei_rd0 Ne) as (con & rest & X1 & X2 & X3). exists con, rest.
    rewrite fed_bytes_app. replace (fed_bytes [o]) with (@nil Z) by (destruct o; auto; destruct Ho). rewrite app_nil_r. auto.
  - rewrite fed_bytes_app. replace (fed_bytes [o]) with (@nil Z) by (destruct o; auto; destruct Ho). rewrite app_nil_r. auto.
Qed.

Lemma estep_inv blk hard tr e V o : 0 <= hard < 2 ^ 62 -> einv blk hard tr e V -> eop_ok o -> zlen (submitted (map fst tr ++ [o])) < 2 ^ 62 - 2 ->
  exists e' r V', estep e o = Some (e', r) /\ einv blk hard (tr ++ [(o, r)]) e' V' /\
    (forall id l sec eb ric, o = EEncode id l -> r = ErSection sec eb ric -> enc_ok hard V e (view_of tr) id l e' sec eb ric V').
Proof.
  intros Hh I Ho Hz. pose proof I as [Es L D R Nx St Bl Mb Sc Rd Fb]. rewrite submitted_app, zlen_app in Hz.
  destruct o as [id l|n|n|src|]; cbn [estep eop_ok] in *.
  - (* encode *)
    destruct Ho as [Hid F]. unfold encode. replace ((id <? 0) || (id >? max_varint)) with false.
    2:{ symmetry. apply orb_false_iff. unfold max_varint. split; [apply Z.ltb_ge; lia|]. rewrite Z.gtb_ltb. apply Z.ltb_ge. lia. }
    destruct (bad (enc_ctx e)) eqn:Eb.
    + exists e, (ErErr ERR_QPACK_FATAL []), V. split; [reflexivity|]. split; [|discriminate].
      apply einv_quiet with (e := e); auto; try lia. eauto.
    + destruct (encode_body_done hard V e (view_of tr) id l Hh L D R F) as (e' & sec & eb & ric & V' & E & O).
      { cbn [submitted] in Hz. rewrite app_nil_r in Hz. lia. }
      rewrite E. exists e', (ErSection sec eb ric), V'. split; [reflexivity|]. split; [|intros id' l' sec' eb' ric' [= <- <-] [= <- <- <-]; exact O].
      pose proof O as [O1 O2 O3 O4 O5 O6 O7 O8 O9 O10 O11 O12 O13 O14 O15]. pose proof (blocked_limit_app (map fst tr) [EEncode id l]) as [Lp Lq]. cbn [blocked_limit] in Lq.
      constructor; rewrite ?map_app, ?view_of_snoc; cbn [map fst]; auto.
      * rewrite enc_bytes_app. cbn [enc_bytes]. rewrite app_nil_r. eapply es_to_trans; eauto.
      * rewrite submitted_app, zlen_app. cbn [submitted]. rewrite app_nil_r. lia.
      * intros f Hf. rewrite submitted_app. cbn [submitted]. rewrite app_nil_r. destruct (O6 f Hf) as [Hi|(h & H1 & H2)].
        -- destruct (St f Hi) as (h & H1 & H2). exists h. split; [apply in_or_app; auto|auto].
        -- exists h. split; [apply in_or_app; auto|auto].
      * lia.
      * lia.
      * apply Forall_app. split; [auto|]. constructor; [|constructor]. cbn [sec_fact]. split; [auto|]. split; [auto|]. split; [auto|].
        destruct O12 as (b & rs & F1 & F2). exists b, rs. split; [auto|]. eapply Forall_impl; [|exact F2]. intros x [X _]. lia.
      * intros Ne. apply no_error_app in Ne as [Ne _]. destruct (Rd Ne) as (con & rest & X1 & X2 & X3). exists con, rest.
        rewrite fed_bytes_app, carried_out_app. cbn [fed_bytes carried_out]. rewrite !app_nil_r. auto.
      * rewrite fed_bytes_app. cbn [fed_bytes]. rewrite app_nil_r. auto.
  - (* capacity *)
    exists (enc_set_cap e n), ErDone, V. split; [reflexivity|]. split; [|discriminate].
    assert (Sm : next_absidx (enc_ctx (enc_set_cap e n)) = next_absidx (enc_ctx e) /\ dtable (enc_ctx (enc_set_cap e n)) = dtable (enc_ctx e) /\
      enc_streams (enc_set_cap e n) = enc_streams e /\ enc_krcnt (enc_set_cap e n) = enc_krcnt e /\ enc_blocked (enc_set_cap e n) = enc_blocked e /\
      max_blocked (enc_ctx (enc_set_cap e n)) = max_blocked (enc_ctx e) /\ (rd_ok e -> rd_ok (enc_set_cap e n)) /\ (forall pre, rdlink e pre -> rdlink (enc_set_cap e n) pre)).
    { unfold enc_set_cap. destruct (_ =? _); [auto 10|]. destruct (_ >? _); cbn; auto 12. }
    destruct Sm as (S1 & S2 & S3 & S4 & S5 & S6 & S7 & S8).
    apply einv_quiet with (e := e); auto; try lia.
    + apply vlink_set_cap; auto.
    + destruct D as [D1 D2]. split; [|auto]. unfold esinv in *. rewrite S3, S4, S5. eapply sinv_same; eauto.
    + cbn [view_step]. eapply rlink_same; eauto.
    + rewrite S5. lia.
  - (* blocked streams *)
    exists (enc_set_blocked e n), ErDone, V. split; [reflexivity|]. split; [|discriminate].
    apply einv_quiet with (e := e); auto; try lia.
    + apply vlink_blocked; auto.
    + destruct D as [D1 D2]. split; [|auto]. unfold esinv in *. eapply sinv_same; eauto.
    + cbn [view_step]. eapply rlink_same; eauto.
    + cbn. lia.
    + cbn. lia.
  - (* decoder stream *)
    pose proof (read_decoder_spec hard e src (view_of tr) D Ho R) as Sp.
    pose proof (blocked_limit_app (map fst tr) [EFeed src]) as [Lp Lq]. cbn [blocked_limit] in Lq.
    assert (K : forall e' r evs, (r = ErFed evs \/ exists x, r = ErErr x evs) -> ds_inv e' -> rlink hard e' (fold_left feedback evs (view_of tr)) -> QpackFeedProofs.fed e e' ->
      (no_error (tr ++ [(EFeed src, r)]) -> exists con rest, fed_bytes (map fst tr ++ [EFeed src]) = con ++ rest /\ rfc_dstream con (map instr_of (carried_out tr ++ carried_out [(EFeed src, r)])) /\ rdlink e' rest) ->
      einv blk hard (tr ++ [(EFeed src, r)]) e' V).
    { intros e' r evs Hr D' R' Fd Rd'. assert (Cx : enc_ctx e' = enc_ctx e \/ enc_ctx e' = ctx_bad (enc_ctx e)) by apply Fd.
      constructor; rewrite ?map_app, ?view_of_snoc, ?carried_out_app; cbn [map fst]; auto.
      - rewrite enc_bytes_app. replace (enc_bytes [(EFeed src, r)]) with (@nil Z) by (destruct Hr as [-> |[x ->]]; auto). rewrite app_nil_r. auto.
      - apply (vlink_same hard V e e'); auto; apply Fd.
      - destruct Hr as [-> |[x ->]]; exact R'.
      - rewrite submitted_app. cbn [submitted]. rewrite app_nil_r. destruct Cx as [-> | ->]; auto.
      - rewrite submitted_app. cbn [submitted]. rewrite app_nil_r. auto.
      - pose proof (fd_bl _ _ Fd). lia.
      - destruct Cx as [-> | ->]; cbn [ctx_bad max_blocked]; lia.
      - apply Forall_app. split; [auto|]. constructor; [exact Logic.I|constructor].
      - rewrite fed_bytes_app. cbn [fed_bytes]. rewrite app_nil_r. apply bytes_app. auto. }
    destruct (read_decoder e src) as [[e' [x|x|]] evs] eqn:Er; [| |destruct Sp].
    + destruct Sp as (S1 & S2 & S3 & S4 & S5 & S6). exists e', (ErFed evs), V. split; [reflexivity|]. split; [|discriminate].
      apply (K e' _ evs); auto. intros Ne. apply no_error_app in Ne as [Ne _]. destruct (Rd Ne) as (con & rest & X1 & X2 & X3).
      rewrite fed_bytes_app. cbn [fed_bytes carried_out]. rewrite !app_nil_r, map_app.
      unfold read_decoder in Er. destruct (bad (enc_ctx e)); [discriminate|]. destruct src as [|b src].
      * injection Er as <- _ <-. exists con, rest. rewrite app_nil_r. cbn [map]. rewrite app_nil_r. auto.
      * cbv zeta in Er. set (e1 := en_set_unint e (enc_unint e + zlen (b :: src))) in *. destruct (_ >? _); [discriminate|].
        assert (Bp : bytes (rest ++ b :: src)) by (rewrite X1 in Fb; apply bytes_app in Fb; apply bytes_app; tauto).
        pose proof (ds_run_parse hard (S (measure 1 ds_rank e1 (b :: src))) e1 (b :: src) (view_of tr) rest
          (esinv_unint _ _ D) Bp (rlink_same hard e e1 _ R eq_refl eq_refl eq_refl eq_refl) X3 ltac:(lia)) as Pz.
        unfold ds_run, run in Er. destruct (run_fuel _ _ _ _ _) as [e2 ev|? ? ?|? ? ?|]; try discriminate. injection Er as -> _ ->.
        destruct Pz as (con2 & rest2 & Y1 & Y2 & Y3). exists (con ++ con2), rest2. split; [rewrite X1, <- app_assoc, Y1, app_assoc; auto|].
        split; [apply rfc_dstream_app; auto|auto].
    + destruct Sp as (S2 & S3 & S4 & S6). exists e', (ErErr x evs), V. split; [reflexivity|]. split; [|discriminate].
      apply (K e' _ evs); eauto. intros Ne. exfalso. apply (Ne (EFeed src) x evs). apply in_or_app. right. left. auto.
  - (* acknowledge everything *)
    exists (ack_everything e), (ErAcked (next_absidx (enc_ctx e))), V. split; [reflexivity|]. split; [|discriminate].
    apply einv_quiet with (e := e); auto; try lia.
    + apply (vlink_same hard V e (ack_everything e)); auto.
    + destruct D as [D1 D2]. split; [|auto]. unfold esinv, ack_everything. cbn.
      apply sinv_all. pose proof (si_k _ _ _ _ D1). lia.
    + cbn [view_step]. constructor; [reflexivity|]. intros id. constructor.
    + cbn. pose proof (zlen_nonneg _ (enc_blocked e)). lia.
    + cbn [blocked_limit ack_everything en_set_str en_set_krcnt enc_ctx]. lia.
Qed.
Lemma erun_inv blk hard ops : 0 <= hard < 2 ^ 62 -> forall e tr0 V, einv blk hard tr0 e V -> Forall eop_ok ops ->
  zlen (submitted (map fst tr0 ++ ops)) < 2 ^ 62 - 2 ->
  exists e' tr V', erun e ops = Some (e', tr) /\ map fst tr = ops /\ einv blk hard (tr0 ++ tr) e' V'.
Proof.
  intros Hh. induction ops as [|o ops IH]; intros e tr0 V I F Z; cbn [erun].
  { exists e, [], V. rewrite app_nil_r. auto. }
  inversion F as [|? ? F1 F2]; subst.
  destruct (estep_inv blk hard tr0 e V o Hh I F1) as (e1 & r & V1 & E1 & I1 & _).
  { change (o :: ops) with ([o] ++ ops) in Z. rewrite app_assoc, submitted_app, zlen_app in Z. pose proof (zlen_nonneg _ (submitted ops)). lia. }
  rewrite E1. destruct (IH e1 (tr0 ++ [(o, r)]) V1 I1 F2) as (e2 & tr & V2 & E2 & M2 & I2).
  { rewrite map_app. cbn [map fst]. rewrite <- app_assoc. exact Z. }
  rewrite E2. exists e2, ((o, r) :: tr), V2. split; [auto|]. split; [cbn [map fst]; congruence|]. rewrite <- app_assoc in I2. exact I2.
Qed.
