(* What every history of encoder calls guarantees, put together for the theorems of
   Props_QpackEnc. *)
From Verif Require Import Base BaseLemmas Tables QpackIntModel QpackIntSpec QpackIntProofs QpackTabModel QpackDynSpec QpackDynProofs Chunk
  QpackDecModel QpackReadProofs QpackDecProofs QpackSecProofs QpackHistModel QpackHistSpec QpackHistProofs QpackCutProofs
  QpackEncModel QpackEncSpec QpackWireProofs QpackEncProofs QpackNvProofs QpackNvsProofs QpackShrinkProofs QpackStreamProofs QpackFeedProofs
  QpackEvolveProofs QpackEncHistProofs QpackPeerProofs.

Lemma from_start blk hard ops E tr : 0 <= hard < 2 ^ 62 -> Forall eop_ok ops -> zlen (submitted ops) < 2 ^ 62 - 2 ->
  erun (enc_init hard) ops = Some (E, tr) -> exists V, einv blk hard tr E V /\ map fst tr = ops /\ next_absidx (enc_ctx E) < 2 ^ 62.
Proof.
  intros Hh Fo Hs Er. destruct (erun_inv blk hard ops Hh (enc_init hard) [] (dec_init hard blk) (einv_init blk hard ltac:(lia)) Fo Hs) as (e & t & V & E1 & E2 & I).
  rewrite Er in E1. injection E1 as <- <-. exists V. split; [auto|]. split; [auto|]. pose proof (ei_next _ _ _ _ _ I) as N. cbn [app] in N. rewrite E2 in N. lia.
Qed.
Lemma erun_snoc ops o : forall e E tr, erun e (ops ++ [o]) = Some (E, tr) ->
  exists e1 tr1 r, erun e ops = Some (e1, tr1) /\ estep e1 o = Some (E, r) /\ tr = tr1 ++ [(o, r)].
Proof.
  induction ops as [|x ops IH]; intros e E tr H.
  - cbn [app erun] in H. destruct (estep e o) as [[e1 r]|] eqn:Es; [|discriminate]. injection H as <- <-. exists e, [], r. auto.
  - cbn [app erun] in H. destruct (estep e x) as [[e1 r]|] eqn:Es; [|discriminate]. destruct (erun e1 (ops ++ [o])) as [[e2 t]|] eqn:Er; [|discriminate].
    injection H as <- <-. destruct (IH _ _ _ Er) as (e3 & tr1 & r1 & A & B & C). exists e3, ((x, r) :: tr1), r1. cbn [erun]. rewrite Es, A. subst t. auto.
Qed.
Lemma last_encode blk hard ops id l E tr sec eb ric : 0 <= hard < 2 ^ 62 -> Forall eop_ok (ops ++ [EEncode id l]) -> zlen (submitted (ops ++ [EEncode id l])) < 2 ^ 62 - 2 ->
  erun (enc_init hard) (ops ++ [EEncode id l]) = Some (E, tr ++ [(EEncode id l, ErSection sec eb ric)]) ->
  exists e V V', enc_ok hard V e (view_of tr) id l E sec eb ric V' /\ einv blk hard tr e V /\ einv blk hard (tr ++ [(EEncode id l, ErSection sec eb ric)]) E V'.
Proof.
  intros Hh Fo Hs Er. apply erun_snoc in Er as (e1 & tr1 & r & Er & Es & Et). apply app_inj_tail in Et as [<- Et]. injection Et as <-.
  apply Forall_app in Fo as [Fo Fo']. inversion Fo' as [|? ? Fl _]; subst.
  assert (Hs' : zlen (submitted ops) < 2 ^ 62 - 2).
  { rewrite submitted_app, zlen_app in Hs. pose proof (zlen_nonneg _ (submitted [EEncode id l])). lia. }
  destruct (from_start blk hard ops e1 tr Hh Fo Hs' Er) as (V & Iv & Em & _).
  destruct (estep_inv blk hard tr e1 V (EEncode id l) Hh Iv Fl ltac:(rewrite Em; exact Hs)) as (E2 & r2 & V' & Es2 & Iv2 & Eo).
  rewrite Es in Es2. injection Es2 as <- <-. exists e1, V, V'. split; [apply Eo; auto|]. auto.
Qed.

(* the table of a decoder that has received everything *)
Lemma same_table hard blocked tr E V dops w dtr : 0 <= hard < 2 ^ 62 -> einv blocked hard tr E V -> Forall dop_ok dops ->
  drun (dw_init hard blocked) dops = Some (w, dtr) -> error_free dtr -> enc_bytes tr = received dops ->
  d_ctx (w_dec w) = d_ctx V /\ insert_count w = next_absidx (enc_ctx E) /\ exists t, contents (d_ctx (w_dec w)) = contents (enc_ctx E) ++ t.
Proof.
  intros Hh I Fd Dr Ef Eq. rewrite <- (app_nil_r (received dops)) in Eq.
  destruct (peer_state hard blocked tr E V dops w dtr [] ltac:(lia) I Fd Dr Ef Eq) as (_ & _ & _ & _ & _ & _ & P). specialize (P eq_refl).
  unfold insert_count. rewrite P. pose proof (ei_vl _ _ _ _ _ I) as L. split; [auto|]. split; [apply (vl_next _ _ _ L)|apply (vl_pre _ _ _ L)].
Qed.

(* blocked streams *)
Lemma blocked_iff hard e v id : esinv e -> rlink hard e v -> (stream_blocked v id <-> exists m, In (m, id) (enc_blocked e)).
Proof.
  intros Is R. pose proof (rl_known _ _ _ R) as Kn. pose proof (rl_out _ _ _ R id) as F2. split.
  - intros (s & Hs & Hi & Hk). destruct (forall2_in_r _ _ _ _ _ s F2 (on_stream_in _ _ _ Hs Hi)) as (r & H1 & [O1 _]).
    exists (max_of (refs_of (enc_streams e) id)). apply (si_bl _ _ _ _ Is). split; [auto|]. pose proof (max_of_ge _ _ H1). lia.
  - intros (m & Hm). apply (si_bl _ _ _ _ Is) in Hm as [-> Hk]. pose proof (si_k _ _ _ _ Is).
    destruct (max_of_ex (refs_of (enc_streams e) id)) as [Z0|(r & Hr & Er)]; [lia|].
    destruct (forall2_in_l _ _ _ _ _ r F2 Hr) as (s & Hs & [O1 _]). unfold on_stream in Hs. apply filter_In in Hs as [Hs Hi]. exists s. split; [auto|]. split; lia.
Qed.
Lemma nodup_snd (l : list (Z * Z)) : NoDup l -> (forall m m' id, In (m, id) l -> In (m', id) l -> m = m') -> NoDup (map snd l).
Proof.
  induction l as [|[m id] l IH]; intros N H; [constructor|]. inversion N; subst. cbn [map snd]. constructor.
  - intros Hi. apply in_map_iff in Hi as ([m' id'] & E & Hi). cbn in E. subst id'. assert (m = m') by (apply (H m m' id); [left|right]; auto). subst. auto.
  - apply IH; auto. intros a b i Ha Hb. apply (H a b i); right; auto.
Qed.
Lemma blocked_list blk hard tr E V : einv blk hard tr E V ->
  exists ids, NoDup ids /\ (forall id, In id ids <-> stream_blocked (view_of tr) id) /\ zlen ids = zlen (enc_blocked E).
Proof.
  intros I. pose proof (proj1 (ei_ds _ _ _ _ _ I)) as Is. exists (map snd (enc_blocked E)). split; [|split].
  - apply nodup_snd; [apply (si_bn _ _ _ _ Is)|]. intros m m' id A B. apply (si_bl _ _ _ _ Is) in A as [-> _]. apply (si_bl _ _ _ _ Is) in B as [-> _]. auto.
  - intros id. rewrite (blocked_iff hard _ _ id Is (ei_rl _ _ _ _ _ I)). split.
    + intros Hi. apply in_map_iff in Hi as ([m i] & <- & Hi). exists m. auto.
    + intros (m & Hm). apply in_map_iff. exists (m, id). auto.
  - unfold zlen. rewrite map_length. auto.
Qed.

(* the encoder's own table *)
Lemma own_size blk hard tr E V : einv blk hard tr E V -> tab_size (contents (enc_ctx E)) <= hard.
Proof.
  intros I. pose proof (ei_vl _ _ _ _ _ I) as L. destruct (vl_pre _ _ _ L) as [t Et]. destruct (vl_inv _ _ _ L) as [[Wv Sv] _].
  pose proof (wf_size _ Wv) as Z1. rewrite tsize_contents, Et, tab_app in Z1. pose proof (tab_nonneg t). pose proof (wf_cap _ Wv). rewrite (vl_hv _ _ _ L) in *. lia.
Qed.
Lemma own_stored blk hard tr E V f : einv blk hard tr E V -> In f (contents (enc_ctx E)) ->
  exists h, In h (submitted (map fst tr)) /\ sensitive h = false /\ f = (nv_name h, nv_value h).
Proof.
  intros I Hf. apply (ei_in _ _ _ _ _ I). destruct (vl_pre _ _ _ (ei_vl _ _ _ _ _ I)) as [t ->]. apply in_app_iff. auto.
Qed.
Lemma min_of_some l m : min_of l = Some m -> exists r, In r l.
Proof. destruct l as [|r l]; [discriminate|]. intros _. exists r. left. auto. Qed.
Lemma stuck_outstanding blk hard tr e V m : einv blk hard tr e V -> gmin e = Some m -> v_out (view_of tr) <> [].
Proof.
  intros I G Z0. apply min_of_some in G as (r & Hr). pose proof (proj1 (ei_ds _ _ _ _ _ I)) as Is.
  apply (all_refs_in _ _ (si_nd _ _ _ _ Is)) in Hr as (id & Hr). destruct (forall2_in_l _ _ _ _ _ r (rl_out _ _ _ (ei_rl _ _ _ _ _ I) id) Hr) as (s & Hs & _).
  unfold on_stream in Hs. rewrite Z0 in Hs. destruct Hs.
Qed.

(* the Required Insert Count *)
Lemma reconstruct_sound c n r : 0 <= hard_max c -> 0 <= next_absidx c -> 0 <= n -> reconstruct_ricnt c n = Ok r ->
  let m := hard_max c / 32 in
  (n = 0 /\ r = 0) \/ (1 <= n <= 2 * m /\ next_absidx c - m < r <= next_absidx c + m /\ 0 < r /\ r mod (2 * m) + 1 = n).
Proof.
  intros Hh Hx Hn H m. unfold reconstruct_ricnt in H. fold m in H. destruct (Z.eqb_spec n 0); [injection H as <-; auto|].
  destruct (Z.gtb_spec n (2 * m)); [discriminate|]. destruct (Z.eqb_spec (2 * m) 0); [discriminate|].
  assert (Hm : 0 < m) by lia. set (mx := next_absidx c + m) in *. set (k := mx / (2 * m)) in *.
  pose proof (Z.div_mod mx (2 * m) ltac:(lia)) as D. pose proof (Z.mod_pos_bound mx (2 * m) ltac:(lia)) as B. fold k in D. rewrite (Z.mul_comm (2 * m) k) in D. assert (Emx : mx = next_absidx c + m) by reflexivity.
  set (mm := mx mod (2 * m)) in *.
  assert (K0 : 0 <= k) by (apply Z.div_pos; lia).
  assert (Md : forall j, (j * (2 * m) + n - 1) mod (2 * m) + 1 = n).
  { intros j. replace (j * (2 * m) + n - 1) with (n - 1 + j * (2 * m)) by lia. rewrite Z.mod_add by lia. rewrite Z.mod_small; lia. }
  destruct ((k * (2 * m) + n - 1 >? mx) && (k * (2 * m) + n - 1 <=? 2 * m)) eqn:C; [discriminate|].
  destruct (Z.gtb_spec (k * (2 * m) + n - 1) mx) as [G|G].
  - cbn [andb] in C. destruct (Z.leb_spec (k * (2 * m) + n - 1) (2 * m)) as [Le|Le]; [discriminate|].
    destruct (Z.eqb_spec (k * (2 * m) + n - 1 - 2 * m) 0); [discriminate|]. apply ok_inj in H. subst r. right.
    split; [lia|]. split; [lia|]. split; [lia|]. replace (k * (2 * m) + n - 1 - 2 * m) with ((k - 1) * (2 * m) + n - 1) by lia. apply Md.
  - destruct (Z.eqb_spec (k * (2 * m) + n - 1) 0); [discriminate|]. apply ok_inj in H. subst r. right.
    split; [lia|]. split; [lia|]. split; [nia|apply Md].
Qed.

(* the decoder stream *)

Lemma rdlink_open_end e rest : rdlink e rest -> bytes rest ->
  forall i r, rfc_dinstr rest = Some (i, r) -> 2 ^ 62 <= instr_val i \/ 10 < zlen rest - zlen r.
Proof.
  intros L B i r H. destruct rest as [|b t]; [discriminate|]. destruct L as (_ & Ob & Q). pose proof (op_byte_prefix _ _ _ Ob) as Hp.
  rewrite (rfc_dinstr_op _ _ _ _ Ob) in H. destruct (rfc_int (enc_prefix e) (b :: t)) as [[v r']|] eqn:Ri; [|discriminate].
  assert (Ei : i = instr_of (enc_op e, v)) by congruence. assert (Er : r = r') by congruence. subst i r. clear H.
  assert (V : instr_val (instr_of (enc_op e, v)) = v) by (destruct (enc_op e); auto). rewrite V.
  destruct (Z_lt_ge_dec v (2 ^ 62)) as [Lt|Ge]; [|left; lia]. destruct (Z_le_gt_dec (zlen (b :: t) - zlen r') 10) as [Le|Gt]; [|right; lia].
  exfalso. destruct (proj2 (q_read_varint_rfc (enc_prefix e) (b :: t) v r' ltac:(lia) B) ltac:(auto)) as (s & X). rewrite X in Q. discriminate.
Qed.
Lemma feed_step blk hard tr e V src : einv blk hard tr e V -> bytes src -> no_error tr -> bad (enc_ctx e) = false ->
  enc_unint e + zlen src <= MAX_DECODERLEN ->
  exists e' res evs con rest, estep e (EFeed src) = Some (e', res) /\ fed_bytes (map fst tr) ++ src = con ++ rest /\
    rfc_dstream con (map instr_of (carried_out tr ++ evs)) /\ accepted (next_absidx (enc_ctx e)) (view_of tr) evs /\
    ((res = ErFed evs /\ too_large rest) \/
     (res = ErErr ERR_QPACK_DECODER_STREAM_ERROR evs /\
       ((exists op n r, rfc_dinstr rest = Some (instr_of (op, n), r) /\ ~ acceptable (next_absidx (enc_ctx e)) (fold_left feedback evs (view_of tr)) (op, n)) \/
        too_large rest))).
Proof.
  intros I Bs Ne Bd Le. destruct (ei_rd _ _ _ _ _ I Ne) as (con & rest & X1 & X2 & X3). pose proof (ei_fb _ _ _ _ _ I) as Fb. rewrite X1 in Fb.
  apply bytes_app in Fb as [Fc Fr].
  destruct src as [|b src].
  { exists e, (ErFed []), [], con, rest. cbn [estep]. unfold read_decoder. rewrite Bd, !app_nil_r. split; [auto|]. split; [auto|]. split; [auto|]. split; [exact Logic.I|]. left.
    split; [auto|]. exact (rdlink_open_end e rest X3 Fr). }
  set (e1 := en_set_unint e (enc_unint e + zlen (b :: src))).
  assert (Bp : bytes (rest ++ b :: src)) by (apply bytes_app; auto).
  pose proof (ds_run_parse hard (S (measure 1 ds_rank e1 (b :: src))) e1 (b :: src) (view_of tr) rest
    (esinv_unint _ _ (ei_ds _ _ _ _ _ I)) Bp (rlink_same hard e e1 _ (ei_rl _ _ _ _ _ I) eq_refl eq_refl eq_refl eq_refl) X3 ltac:(lia)) as Pz.
  pose proof (ds_run_view hard (S (measure 1 ds_rank e1 (b :: src))) e1 (b :: src) (view_of tr)
    (esinv_unint _ _ (ei_ds _ _ _ _ _ I)) Bs (rlink_same hard e e1 _ (ei_rl _ _ _ _ _ I) eq_refl eq_refl eq_refl eq_refl) ltac:(lia)) as Vz.
  cbn [estep]. unfold read_decoder. rewrite Bd. cbv zeta. fold e1. replace (enc_unint e1) with (enc_unint e + zlen (b :: src)) by reflexivity.
  destruct (Z.gtb_spec (enc_unint e + zlen (b :: src)) MAX_DECODERLEN); [lia|].
  unfold ds_run, run. destruct (run_fuel ds_step _ e1 (b :: src) false) as [e2 evs|e2 r2 evs|x e2 evs|]; [| destruct Pz| |destruct Pz].
  - destruct Pz as (con2 & rest2 & Y1 & Y2 & Y3). destruct Vz as (_ & _ & _ & _ & Va).
    exists e2, (ErFed evs), evs, (con ++ con2), rest2. split; [auto|]. split; [rewrite X1, <- app_assoc, Y1, app_assoc; auto|].
    split; [rewrite map_app; apply rfc_dstream_app; auto|]. split; [exact Va|]. left. split; [auto|]. refine (rdlink_open_end e2 rest2 Y3 _).
    rewrite Y1 in Bp. apply bytes_app in Bp. apply Bp.
  - destruct Pz as (_ & con2 & rest2 & Y1 & Y2 & Y3). destruct Vz as (Vx & _ & _ & _ & _ & Va).
    exists e2, (ErErr x evs), evs, (con ++ con2), rest2. split; [auto|]. split; [rewrite X1, <- app_assoc, Y1, app_assoc; auto|].
    split; [rewrite map_app; apply rfc_dstream_app; auto|]. split; [exact Va|]. right. subst x. split; [auto|exact Y3].
Qed.

(* ---- cutting the decoder stream ---- *)
Lemma apply_ds_unint e op n u : apply_ds (en_set_unint e u) op n =
  match apply_ds e op n with Ok e' => Ok (en_set_unint e' u) | Err x => Err x | Abort => Abort end.
Proof.
  destruct op; cbn [apply_ds]; unfold ack_header, enc_cancel, add_icnt, is_blocked; cbn [en_set_unint enc_streams enc_blocked enc_krcnt enc_ctx].
  - destruct (_ || _); auto.
  - destruct (find_stream (enc_streams e) n) as [[|[mx mn] r]|]; auto. cbv zeta. destruct (_ <? mx); reflexivity.
  - destruct (find_stream (enc_streams e) n) as [r|]; auto. destruct (enc_krcnt e <? max_of r); cbn [obind]; auto. destruct (unblock_stream (enc_blocked e) (max_of r, n)); auto.
Qed.
Lemma ds_unint_comm e u p : ds_step (en_set_unint e u) p =
  match ds_step e p with
  | SGo d' r b ev => SGo (en_set_unint d' u) r b ev
  | SMore d' ev => SMore (en_set_unint d' u) ev
  | SStop d' r ev => SStop (en_set_unint d' u) r ev
  | SErr x d' ev => SErr x (en_set_unint d' u) ev
  | SAbort => SAbort
  end.
Proof.
  destruct p as [|b t]; [reflexivity|]. rewrite !ds_step_eq. cbv zeta.
  assert (O : ds_open (en_set_unint e u) b = en_set_unint (ds_open e b) u).
  { unfold ds_open. cbn [enc_reading en_set_unint]. destruct (enc_reading e); [reflexivity|]. cbv zeta. destruct (_ || _); [reflexivity|]. destruct (_ =? 64); reflexivity. }
  rewrite O. set (e0 := ds_open e b). replace (enc_prefix (en_set_unint e0 u)) with (enc_prefix e0) by reflexivity. replace (enc_left (en_set_unint e0 u)) with (enc_left e0) by reflexivity.
  replace (enc_shift (en_set_unint e0 u)) with (enc_shift e0) by reflexivity. replace (enc_op (en_set_unint e0 u)) with (enc_op e0) by reflexivity.
  destruct (q_read_varint _ _ _ _) as [[[[l s] r] [|]]|x|]; auto. rewrite apply_ds_unint. destruct (apply_ds e0 (enc_op e0) l); reflexivity.
Qed.
Lemma ds_run_unint e u p : ds_run (en_set_unint e u) p =
  match ds_run e p with
  | ROk d' ev => ROk (en_set_unint d' u) ev
  | RStop d' r ev => RStop (en_set_unint d' u) r ev
  | RErr x d' ev => RErr x (en_set_unint d' u) ev
  | RAbort => RAbort
  end.
Proof.
  unfold ds_run, run. replace (measure 1 ds_rank (en_set_unint e u) p) with (measure 1 ds_rank e p) by reflexivity.
  generalize (S (measure 1 ds_rank e p)). intros f. generalize false as busy.
  revert e p. induction f as [|f IH]; intros e p busy.
  - destruct p, busy; cbn; auto.
  - assert (T : turn ds_step (en_set_unint e u) p (run_fuel ds_step f) =
      match turn ds_step e p (run_fuel ds_step f) with
      | ROk d' ev => ROk (en_set_unint d' u) ev
      | RStop d' r ev => RStop (en_set_unint d' u) r ev
      | RErr x d' ev => RErr x (en_set_unint d' u) ev
      | RAbort => RAbort
      end).
    { unfold turn. rewrite ds_unint_comm. destruct (ds_step e p) as [d1 r b ev| | | |]; auto.
      rewrite IH. destruct (run_fuel ds_step f d1 r b); cbn; auto. }
    destruct p, busy; cbn [run_fuel]; auto.
Qed.
Lemma ds_run_state hard e p v : ds_inv e -> bytes p -> rlink hard e v ->
  match ds_run e p with
  | ROk e' evs => ds_inv e' /\ enc_ctx e' = enc_ctx e /\ rlink hard e' (fold_left feedback evs v) /\ enc_unint e' = enc_unint e
  | RErr _ _ _ => True
  | _ => False
  end.
Proof.
  intros I B R. pose proof (ds_run_view hard (S (measure 1 ds_rank e p)) e p v I B R ltac:(lia)) as H.
  pose proof (ds_run_unint e (enc_unint e) p) as U. replace (en_set_unint e (enc_unint e)) with e in U by (destruct e; reflexivity).
  fold (run ds_step 1 ds_rank e p false) in H. fold (ds_run e p) in H. destruct (ds_run e p) as [e' evs| | |]; auto.
  split; [apply H|]. split; [apply H|]. split; [apply H|]. injection U as ->. reflexivity.
Qed.
Lemma read_decoder_run hard e src v : ds_inv e -> bytes src -> rlink hard e v -> bad (enc_ctx e) = false -> enc_unint e + zlen src <= MAX_DECODERLEN ->
  read_decoder e src =
  match ds_run e src with
  | ROk e' evs => (en_set_unint e' (enc_unint e + zlen src), Ok (zlen src), evs)
  | RErr x e' evs => (en_set_unint e' (enc_unint e + zlen src), Err x, evs)
  | _ => (e, Abort, [])
  end.
Proof.
  intros I B R Bd Le. unfold read_decoder. rewrite Bd. destruct src as [|x src].
  - change (ds_run e []) with (@ROk enc (ds_op * Z) e []). rewrite zlen_nil, Z.add_0_r. destruct e; reflexivity.
  - cbv zeta. cbn [enc_unint en_set_unint]. destruct (Z.gtb_spec (enc_unint e + zlen (x :: src)) MAX_DECODERLEN); [lia|].
    rewrite ds_run_unint. pose proof (ds_run_state hard e (x :: src) v I B R) as G. destruct (ds_run e (x :: src)); auto; contradiction.
Qed.
Lemma feed_decoder_concat hard ps : forall e v, ds_inv e -> rlink hard e v -> bytes (concat ps) -> bad (enc_ctx e) = false ->
  enc_unint e + zlen (concat ps) <= MAX_DECODERLEN ->
  match feed_decoder e ps, read_decoder e (concat ps) with
  | (e1, Ok n1, ev1), (e2, Ok n2, ev2) => e1 = e2 /\ n1 = n2 /\ ev1 = ev2
  | (e1, Err x1, ev1), (e2, Err x2, ev2) => x1 = x2 /\ same_enc e1 e2 /\ ev1 = ev2
  | _, _ => False
  end.
Proof.
  induction ps as [|p ps IH]; intros e v Hi R Hb B L; cbn [feed_decoder concat].
  - unfold read_decoder. rewrite B. auto.
  - cbn [concat] in *. apply bytes_app in Hb as Hb'. destruct Hb' as [Hp Hc]. rewrite zlen_app in L.
    pose proof (zlen_nonneg _ (concat ps)).
    rewrite (read_decoder_run hard e (p ++ concat ps) v) by (auto; rewrite zlen_app; lia).
    rewrite (read_decoder_run hard e p v) by (auto; lia). rewrite ds_run_app by auto.
    pose proof (ds_run_state hard e p v Hi Hp R) as G.
    destruct (ds_run e p) as [e1 ev|e1 r ev|x e1 ev|]; try contradiction.
    + destruct G as (G1 & G2 & G3 & _).
      assert (H1 : ds_inv (en_set_unint e1 (enc_unint e + zlen p))) by exact G1.
      assert (R1 : rlink hard (en_set_unint e1 (enc_unint e + zlen p)) (fold_left feedback ev v)) by (apply (rlink_same hard e1); auto).
      specialize (IH _ _ H1 R1 Hc). cbn [enc_ctx enc_unint en_set_unint] in IH. specialize (IH ltac:(congruence) ltac:(lia)).
      rewrite (read_decoder_run hard (en_set_unint e1 (enc_unint e + zlen p)) (concat ps) (fold_left feedback ev v)) in IH; [|exact H1|auto|exact R1|cbn [enc_ctx en_set_unint]; congruence|cbn [enc_unint en_set_unint]; lia].
      rewrite ds_run_unint in IH. cbn [enc_unint en_set_unint] in IH.
      destruct (ds_run e1 (concat ps)) as [e2 ev2|e2 r2 ev2|x2 e2 ev2|]; cbn [rev_];
        destruct (feed_decoder _ ps) as [[e3 [m|x3|]] ev3]; auto; try contradiction.
      * destruct IH as (-> & -> & ->). split; [|split; [rewrite zlen_app|]; auto]. unfold en_set_unint; cbn. f_equal. rewrite zlen_app. lia.
      * destruct IH as (-> & Se & ->). auto.
    + split; [auto|]. split; [reflexivity|auto].
Qed.
