(* Every operation of TxModel preserves the representation invariant and does what TxSpec says *)
From Verif Require Import Base BaseLemmas ConvModel ConvSpec ConvProofs TxModel TxSpec TxProofs.

Record core (s : txs) (w : list (Z * bool)) (sent : Z) : Prop := {
  k_nd : NoDup (map ck_id (t_chunks s));
  k_lt : Forall (fun c => ck_id c < t_nck s) (t_chunks s);
  k_rep : rep (t_chunks s) (t_outq s) (from (t_ackb s) w);
  k_pos : posn (t_outq s) (t_idx s) (sent - t_ackb s);
  k_ord : 0 <= t_ackb s <= t_acko s /\ t_acko s <= sent <= zlen w;
  k_off : t_off s = zlen w;
  k_uns : t_unsent s = zlen w - sent;
  k_first : match t_outq s with [] => t_acko s = t_ackb s
            | t :: _ => t_acko s < t_ackb s + flen t \/ (flen t = 0 /\ t_acko s = t_ackb s) end;
  k_max : zlen w <= max_varint }.
(* the fields the output queue functions leave alone *)
Definition keeps (s s' : txs) : Prop :=
  t_frq s' = t_frq s /\ t_rdblk s' = t_rdblk s /\ t_end s' = t_end s /\ t_nenc s' = t_nenc s /\ t_nrd s' = t_nrd s /\
  t_acko s' = t_acko s /\ t_ackb s' = t_ackb s.
Lemma keeps_refl s : keeps s s. Proof. repeat split. Qed.
Lemma keeps_trans a b c : keeps a b -> keeps b c -> keeps a c.
Proof. unfold keeps; intuition congruence. Qed.

Lemma write_done_idx s x : posn (t_outq s) (t_idx s) x -> write_done s = true -> t_idx s = length (t_outq s).
Proof. intros H; unfold write_done; intros W; apply posn_le in H; lia. Qed.

(* adding a buffer that is not shared *)
Lemma add_plain s w sent ty l : core s w sent -> ty <> BShared -> (l <> [] \/ (ty = BPrivate /\ write_done s = true)) ->
  if zlen w + zlen l <=? max_varint then
    exists s', outq_add s (tb_of ty l) = Ok s' /\ core s' (w ++ tag (match ty with BAlien => true | _ => false end) l) sent /\ keeps s s'
  else outq_add s (tb_of ty l) = Err ERR_STREAM_DATA_OVERFLOW.
Proof.
  intros K Ht Hl. destruct K. unfold outq_add. unfold b_len; cbn [tb_of b_last b_pos]. rewrite Z.sub_0_r, k_off0.
  pose proof (zlen_nonneg _ l) as Zl.
  destruct (Z.leb_spec (zlen w + zlen l) max_varint) as [L|L]; destruct (Z.ltb_spec (max_varint - zlen w) (zlen l)) as [L2|L2]; try lia; [|reflexivity].
  assert (forall dest, same_block dest (tb_of ty l) = false) as Sb.
  { intros dest; unfold same_block; cbn [b_type tb_of]; destruct (b_type dest), ty; congruence. }
  set (s1 := set_outq (set_sizes s (t_unsent s + zlen l) (zlen w + zlen l)) (t_outq s ++ [tb_of ty l]) (t_idx s)).
  exists s1. split; [|split].
  - cbn [t_outq set_sizes t_idx]. destruct (rev (t_outq s)); [reflexivity|]. rewrite Sb; reflexivity.
  - assert (flen (tb_of ty l) = zlen l) as Fl by (unfold flen; cbn; lia).
    constructor; cbn [s1 t_chunks t_nck t_outq t_ackb t_acko t_idx t_off t_unsent set_outq set_sizes]; auto.
    + rewrite from_app by lia. destruct ty; [|congruence|].
      * apply (rep_snoc_priv _ _ _ (tb_of BPrivate l)); auto.
      * destruct Hl as [Hl|[? _]]; [|congruence]. apply (rep_snoc_alien _ _ _ (tb_of BAlien l)); auto.
    + apply posn_snoc; auto. rewrite Fl. destruct l as [|z l].
      * right; split; auto. destruct Hl as [?|[_ W]]; [congruence|]. eapply write_done_idx; eauto.
      * left; rewrite zlen_cons; pose proof (zlen_nonneg _ l); lia.
    + rewrite zlen_app, zlen_tag; lia.
    + rewrite zlen_app, zlen_tag; lia.
    + rewrite zlen_app, zlen_tag; lia.
    + destruct (t_outq s); cbn [app]; auto. rewrite Fl, k_first0. destruct (Z.eq_dec (zlen l) 0); [right|left]; lia.
    + rewrite zlen_app, zlen_tag; lia.
  - repeat split.
Qed.

Lemma chunk_size_ge fuel : forall n need, 0 < n -> need <= n * 2 ^ Z.of_nat fuel -> need <= chunk_size fuel n need.
Proof.
  induction fuel as [|f IH]; intros n need Hn H; cbn [chunk_size].
  - cbn in H; lia.
  - destruct (Z.ltb_spec n need); [|lia]. apply IH; [lia|].
    rewrite Nat2Z.inj_succ, Z.pow_succ_r in H by lia. lia.
Qed.
(* reserving and writing [l] *)
Lemma reserve_write s w sent need l : core s w sent -> l <> [] -> zlen l <= need -> need < 2 ^ 64 ->
  exists s1 id a, chunk_write (ensure_chunk s need) l = Ok (s1, id, a, a + zlen l) /\
    (exists cs n, s1 = set_chunks (set_nck s n) cs) /\ NoDup (map ck_id (t_chunks s1)) /\
    Forall (fun c => ck_id c < t_nck s1) (t_chunks s1) /\ 0 <= a /\
    rep (t_chunks s1) (t_outq s ++ [mk_tb BShared id [] a a (a + zlen l)]) (from (t_ackb s) w ++ tag false l).
Proof.
  intros K Hl Hn Hm. destruct K. unfold ensure_chunk.
  set (c' := mk_ck (t_nck s) (chunk_size 64 MIN_CHUNK_SIZE need) []).
  assert (need <= ck_cap c') as Hcap.
  { cbn [c' ck_cap]. apply chunk_size_ge; unfold MIN_CHUNK_SIZE; [lia|]. change (Z.of_nat 64) with 64. clear - Hm. lia. }
  assert (let s0 := set_nck (set_chunks s (t_chunks s ++ [c'])) (t_nck s + 1) in
          exists s1 id a, chunk_write s0 l = Ok (s1, id, a, a + zlen l) /\
    (exists cs n, s1 = set_chunks (set_nck s n) cs) /\ NoDup (map ck_id (t_chunks s1)) /\
    Forall (fun c => ck_id c < t_nck s1) (t_chunks s1) /\ 0 <= a /\
    rep (t_chunks s1) (t_outq s ++ [mk_tb BShared id [] a a (a + zlen l)]) (from (t_ackb s) w ++ tag false l)) as Hnew.
  { cbn zeta. unfold chunk_write. cbn [set_nck set_chunks t_chunks]. rewrite rev_app_distr; cbn [rev app].
    change (ck_data c') with (@nil Z); change (ck_id c') with (t_nck s); rewrite zlen_nil, Z.sub_0_r.
    destruct (Z.ltb_spec (ck_cap c') (zlen l)); [lia|]. do 3 eexists; split; [reflexivity|].
    cbn [set_nck set_chunks t_chunks t_nck app]. rewrite rev_involutive.
    set (c1 := mk_ck (t_nck s) (ck_cap c') l).
    split; [|split; [|split; [|split]]].
    - do 2 eexists. reflexivity.
    - rewrite map_app; cbn [map c1 ck_id]. apply NoDup_Add with (a := t_nck s) (l := map ck_id (t_chunks s)).
      + rewrite <- (app_nil_r (map ck_id (t_chunks s))) at 1. apply Add_app.
      + split; auto. intros Hi; apply in_map_iff in Hi as (c & Ec & Hc). rewrite Forall_forall in k_lt0; specialize (k_lt0 _ Hc); lia.
    - apply Forall_app; split; [eapply Forall_impl; [|apply k_lt0]; cbn; lia|]. constructor; auto; cbn; lia.
    - lia.
    - assert (0 < zlen l) by (destruct l; [congruence|rewrite zlen_cons; pose proof (zlen_nonneg _ l); lia]).
      pose proof (rep_snoc_new (t_chunks s) (t_outq s) (from (t_ackb s) w) (mk_tb BShared (t_nck s) [] 0 0 (0 + zlen l)) c1 eq_refl eq_refl) as Hx.
      cbn [b_begin b_last c1 ck_data] in Hx.
      rewrite Z.add_0_l, sub_all in Hx. apply Hx; auto; lia. }
  destruct (rev (t_chunks s)) as [|c front] eqn:Er; [exact Hnew|].
  destruct (Z.leb_spec need (ck_cap c - zlen (ck_data c))) as [Lc|Lc]; [|exact Hnew].
  assert (t_chunks s = rev front ++ [c]) as Ecs by (rewrite <- (rev_involutive (t_chunks s)), Er; reflexivity).
  unfold chunk_write. rewrite Er. destruct (Z.ltb_spec (ck_cap c - zlen (ck_data c)) (zlen l)); [lia|].
  do 3 eexists; split; [reflexivity|]. cbn [set_chunks t_chunks t_nck rev].
  split; [|split; [|split; [|split]]].
  - exists (rev front ++ [mk_ck (ck_id c) (ck_cap c) (ck_data c ++ l)]), (t_nck s). reflexivity.
  - rewrite Ecs in k_nd0. rewrite map_app in *; exact k_nd0.
  - rewrite Ecs in k_lt0. apply Forall_app in k_lt0 as [A B]; apply Forall_app; split; auto. inversion B; subst; constructor; auto.
  - apply zlen_nonneg.
  - eapply rep_snoc_ext; eauto.
Qed.
(* adding a shared buffer just written *)
Lemma add_shared s w sent s1 id a l : core s w sent -> l <> [] -> 0 <= a ->
    (exists cs n, s1 = set_chunks (set_nck s n) cs) -> NoDup (map ck_id (t_chunks s1)) ->
    Forall (fun c => ck_id c < t_nck s1) (t_chunks s1) ->
    rep (t_chunks s1) (t_outq s ++ [mk_tb BShared id [] a a (a + zlen l)]) (from (t_ackb s) w ++ tag false l) ->
  if zlen w + zlen l <=? max_varint then
    exists s', outq_add s1 (mk_tb BShared id [] a a (a + zlen l)) = Ok s' /\ core s' (w ++ tag false l) sent /\ keeps s s'
  else outq_add s1 (mk_tb BShared id [] a a (a + zlen l)) = Err ERR_STREAM_DATA_OVERFLOW.
Proof.
  intros K Hl Ha (cs & nk & ->) Nd Lt Rp. destruct K. unfold outq_add. unfold b_len; cbn [b_last b_pos set_chunks set_nck t_off].
  rewrite k_off0. replace (a + zlen l - a) with (zlen l) by lia.
  assert (0 < zlen l) as Zl by (destruct l; [congruence|rewrite zlen_cons; pose proof (zlen_nonneg _ l); lia]).
  destruct (Z.leb_spec (zlen w + zlen l) max_varint) as [L|L]; destruct (Z.ltb_spec (max_varint - zlen w) (zlen l)) as [L2|L2]; try lia; [|reflexivity].
  cbn [t_outq set_sizes set_chunks set_nck t_idx t_unsent]. set (t := mk_tb BShared id [] a a (a + zlen l)) in *.
  assert (flen t = zlen l) as Fl by (unfold flen; cbn; lia).
  cbn [t_chunks t_nck set_chunks set_nck] in *.
  assert (core (set_outq (set_sizes (set_chunks (set_nck s nk) cs) (t_unsent s + zlen l) (zlen w + zlen l)) (t_outq s ++ [t]) (t_idx s))
               (w ++ tag false l) sent) as Hplain.
  { constructor; cbn [t_chunks t_nck t_outq t_ackb t_acko t_idx t_off t_unsent set_outq set_sizes set_chunks set_nck]; auto.
    + rewrite from_app by lia; auto.
    + apply posn_snoc; auto; left; lia.
    + rewrite zlen_app, zlen_tag; lia.
    + rewrite zlen_app, zlen_tag; lia.
    + rewrite zlen_app, zlen_tag; lia.
    + destruct (t_outq s); cbn [app]; auto. left; lia.
    + rewrite zlen_app, zlen_tag; lia. }
  destruct (rev (t_outq s)) as [|dest front] eqn:Er; [eexists; split; [reflexivity|split; [exact Hplain|repeat split]]|].
  destruct (same_block dest t) eqn:Sb; [|eexists; split; [reflexivity|split; [exact Hplain|repeat split]]].
  assert (t_outq s = rev front ++ [dest]) as Eq by (rewrite <- (rev_involutive (t_outq s)), Er; reflexivity).
  unfold same_block in Sb; destruct (b_type dest) eqn:Td; try discriminate. cbn [t b_type b_mem b_pos] in Sb.
  apply andb_prop in Sb as [S1 S2]; apply Z.eqb_eq in S1, S2.
  assert (0 < flen dest) as Fd.
  { apply rep_flen in k_rep0. rewrite Eq in k_rep0. apply Forall_app in k_rep0 as [_ B]; inversion B as [|? ? [_ C] _]; subst; apply C; congruence. }
  eexists; split; [reflexivity|split; [|repeat split]].
  assert (mk_tb BShared (b_mem dest) (b_data dest) (b_begin dest) (b_pos dest) (a + zlen l) = merged dest t) as Em by (unfold merged; rewrite Td; reflexivity).
  constructor; cbn [t_chunks t_nck t_outq t_ackb t_acko t_idx t_off t_unsent set_outq set_sizes set_chunks set_nck rev]; auto.
  + rewrite Em, from_app by lia. apply rep_merge; auto. rewrite Eq, <- app_assoc in Rp. exact Rp.
  + rewrite Em, Eq. rewrite Eq in k_pos0. apply posn_merge; auto. cbn [t b_last]; lia.
  + rewrite zlen_app, zlen_tag; lia.
  + rewrite zlen_app, zlen_tag; lia.
  + rewrite zlen_app, zlen_tag; lia.
  + rewrite Em. rewrite Eq in k_first0. destruct (rev front) as [|f0 fr]; cbn [app] in *; [|exact k_first0].
    assert (flen dest < flen (merged dest t)) by (unfold flen; cbn [merged t b_last b_begin]; lia). left; lia.
  + rewrite zlen_app, zlen_tag; lia.
Qed.
Lemma shared_ok s w sent need l : core s w sent -> l <> [] -> zlen l <= need -> need < 2 ^ 64 ->
  if zlen w + zlen l <=? max_varint then
    exists s', shared_add (ensure_chunk s need) l = Ok s' /\ core s' (w ++ tag false l) sent /\ keeps s s'
  else shared_add (ensure_chunk s need) l = Err ERR_STREAM_DATA_OVERFLOW.
Proof.
  intros K Hl Hn Hm. destruct (reserve_write s w sent need l K Hl Hn Hm) as (s1 & id & a & E & Hs & Nd & Lt & Ha & Rp).
  unfold shared_add; rewrite E; cbn [obind]. eapply add_shared; eauto.
Qed.
Lemma chunk_write_app s l1 l2 s2 id a b : chunk_write s (l1 ++ l2) = Ok (s2, id, a, b) ->
  exists s1, chunk_write s l1 = Ok (s1, id, a, a + zlen l1) /\ chunk_write s1 l2 = Ok (s2, id, a + zlen l1, b).
Proof.
  unfold chunk_write. destruct (rev (t_chunks s)) as [|c front] eqn:E; [discriminate|].
  rewrite zlen_app. pose proof (zlen_nonneg _ l1); pose proof (zlen_nonneg _ l2).
  destruct (Z.ltb_spec (ck_cap c - zlen (ck_data c)) (zlen l1 + zlen l2)); [discriminate|]. intros HH; injection HH as <- <- <- <-.
  destruct (Z.ltb_spec (ck_cap c - zlen (ck_data c)) (zlen l1)); [lia|]. eexists; split; [reflexivity|].
  cbn [set_chunks t_chunks]. rewrite rev_involutive. cbn [ck_cap ck_data ck_id].
  rewrite zlen_app. destruct (Z.ltb_spec (ck_cap c - (zlen (ck_data c) + zlen l1)) (zlen l2)); [lia|].
  rewrite <- app_assoc, Z.add_assoc. reflexivity.
Qed.

(* ---- the transport took n bytes ---- *)
Lemma written_ok s w sent n : core s w sent -> 0 <= n -> sent + n <= zlen w ->
  exists s', add_outq_offset s n = Ok s' /\ core s' w (sent + n) /\ keeps s s'.
Proof.
  intros K Hn Hm. destruct K. unfold add_outq_offset. cbn [set_sizes t_idx t_outq].
  assert (total (t_outq s) = zlen w - t_ackb s) as Tq by (rewrite <- (rep_len _ _ _ k_rep0), zlen_from; lia).
  destruct (offset_gen (t_outq s) (t_idx s) (sent - t_ackb s) n 0 k_pos0 Hn) as (q2 & k & m & E & P & F & Km); [lia|].
  rewrite Nat.add_0_l in E. rewrite E. rewrite Nat.add_0_l in *.
  assert ((k <? length (t_outq s))%nat || (m =? 0) = true) as -> by (destruct Km as [Km | ->]; [apply Nat.ltb_lt in Km; rewrite Km; auto|apply orb_true_r]).
  eexists; split; [reflexivity|split; [|repeat split]].
  constructor; cbn [t_chunks t_nck t_outq t_ackb t_acko t_idx t_off t_unsent set_outq set_sizes]; auto.
  - eapply rep_but_pos; eauto.
  - replace (sent + n - t_ackb s) with (sent - t_ackb s + n) by lia; auto.
  - lia.
  - lia.
  - inversion F as [Eq Eq2|? ? ? ? Bp ? Eq Eq2]; rewrite <- Eq in k_first0; auto.
    destruct Bp as (_ & _ & _ & B1 & B2). unfold flen in *; rewrite <- B1, <- B2; auto.
Qed.

(* ---- acknowledgements ---- *)
Lemma upto_0 {A} (l : list A) : upto 0 l = []. Proof. reflexivity. Qed.
Lemma app_bytes_upto_tag tg l n : 0 <= n <= zlen l -> app_bytes (upto n (tag tg l)) = if tg then n else 0.
Proof.
  intros H; unfold upto; rewrite tag_firstn. destruct tg; [rewrite app_bytes_true, zlen_firstn; lia|apply app_bytes_false].
Qed.
Lemma NoDup_tail {A} (x : A) l : NoDup (x :: l) -> NoDup l. Proof. inversion 1; auto. Qed.
Lemma ack_ok w sent off : 0 <= sent <= zlen w -> zlen w <= max_varint -> forall q s, t_outq s = q -> core s w sent -> t_acko s <= off <= sent ->
  exists s' cs, ack_loop q s off = Ok (s', cs) /\ core s' w sent /\ t_acko s' = off /\
    t_frq s' = t_frq s /\ t_rdblk s' = t_rdblk s /\ t_end s' = t_end s /\ t_nenc s' = t_nenc s /\ t_nrd s' = t_nrd s /\
    fold_right Z.add 0 cs = app_bytes (upto off w) - app_bytes (upto (t_acko s) w) /\ Forall (fun n => 0 < n) cs.
Proof.
  intros Hs Hmax q; induction q as [|t q IH]; intros s Eq K Ho; pose proof K as K0; destruct K0; rewrite Eq in *; cbn [ack_loop].
  - cbn [posn] in k_pos0. destruct (t_idx s) eqn:Ei; [|contradiction].
    assert (off = t_acko s) as -> by lia.
    eexists _, []; split; [reflexivity|]. split; [|repeat split; cbn [fold_right]; auto; lia].
    destruct K; constructor; cbn [set_ack t_chunks t_nck t_outq t_ackb t_acko t_idx t_off t_unsent]; auto.
  - set (buflen := b_last t - b_begin t). change (b_last t - b_begin t) with (flen t) in buflen.
    destruct (rep_pop _ _ _ _ k_rep0) as (cs' & c & o' & Ep & Rp & Eo & Zc & Hcs & (lc & Ec)).
    assert (0 <= flen t) as Fn by (rewrite <- Zc; apply zlen_nonneg).
    assert (forall n, t_ackb s <= n -> app_bytes (upto n w) = app_bytes (upto (t_ackb s) w) + app_bytes (upto (n - t_ackb s) (c ++ o'))) as Hup.
    { intros n Hn. rewrite <- Eo. rewrite (upto_from (t_ackb s) n w) by lia. apply app_bytes_app. }
    set (call := match b_type t with BAlien => if t_acko s <? off then [Z.min off (t_ackb s + buflen) - t_acko s] else [] | _ => [] end).
    assert (fold_right Z.add 0 call = app_bytes (upto (Z.min off (t_ackb s + flen t)) w) - app_bytes (upto (t_acko s) w) /\ Forall (fun n => 0 < n) call) as [Hcall Hpos].
    { assert (Z.min off (t_ackb s + flen t) - t_ackb s <= zlen c) by lia.
      assert (t_acko s - t_ackb s <= zlen c) by lia.
      rewrite (Hup (Z.min off (t_ackb s + flen t))), (Hup (t_acko s)) by lia. rewrite !(upto_app_l _ c o') by lia. rewrite Ec in *. rewrite zlen_tag in *.
      rewrite !app_bytes_upto_tag by lia. unfold call, buflen. destruct (b_type t) eqn:Et; cbn [fold_right]; try (split; [lia|constructor]).
      assert (0 < flen t). { pose proof (rep_flen _ _ _ k_rep0) as Hf; inversion Hf as [|? ? [_ C] _]; subst; apply C; congruence. }
      destruct (Z.ltb_spec (t_acko s) off); cbn [fold_right]; split; try lia; repeat constructor; lia. }
    destruct (negb (t_idx s =? 0)%nat && (t_ackb s + buflen <=? off)) eqn:Cond.
    + apply andb_prop in Cond as [C1 C2]. apply Z.leb_le in C2. rewrite Ep; cbn [obind].
      destruct (t_idx s) as [|i] eqn:Ei; [discriminate|]. cbn [posn] in k_pos0. destruct k_pos0 as [P1 P2].
      match goal with |- context [ack_loop q ?x off] => set (s1 := x) end.
      assert (core s1 w sent) as K1.
      { constructor; cbn [s1 set_ack set_outq set_chunks t_chunks t_nck t_outq t_ackb t_acko t_idx t_off t_unsent Nat.sub].
        - destruct Hcs as [-> |[h Hh]]; auto. rewrite Hh in k_nd0. cbn [map] in k_nd0; eapply NoDup_tail; eauto.
        - destruct Hcs as [-> |[h Hh]]; auto. rewrite Hh in k_lt0. inversion k_lt0; auto.
        - replace (from (t_ackb s + buflen) w) with o'; auto.
          rewrite (Z.add_comm (t_ackb s)), <- (from_from buflen (t_ackb s)) by lia. rewrite Eo, from_skip by lia. unfold buflen. rewrite Zc, Z.sub_diag; auto.
        - rewrite Nat.sub_0_r. unfold buflen. replace (sent - (t_ackb s + flen t)) with (sent - t_ackb s - flen t) by lia; auto.
        - lia.
        - auto.
        - auto.
        - pose proof (rep_flen _ _ _ Rp) as Hf. destruct q as [|u q]; auto. inversion Hf as [|? ? [C _] _]; subst. destruct (Z.eq_dec (flen u) 0); [right|left]; lia.
        - auto. }
      destruct (IH s1 eq_refl K1) as (s' & cs & E & K' & A1 & A2 & A3 & A4 & A5 & A6 & A7 & A8); [change (t_ackb s + buflen <= off <= sent); lia|].
      rewrite E; cbn [obind]. exists s', (call ++ cs). split; [reflexivity|]. do 7 (split; [assumption|]). split.
      * change (t_acko s1) with (t_ackb s + buflen) in A7. rewrite fold_right_app. 
        assert (forall l a, fold_right Z.add a l = fold_right Z.add 0 l + a) as Fr by (induction l; cbn [fold_right]; intros; [lia|rewrite IHl; lia]).
        rewrite Fr, A7, Hcall. unfold buflen. replace (Z.min off (t_ackb s + flen t)) with (t_ackb s + flen t) by lia. lia.
      * apply Forall_app; auto.
    + assert (off <= t_ackb s + flen t) as Hle.
      { apply andb_false_iff in Cond as [C|C]; [|unfold buflen in C; lia].
        destruct (t_idx s) eqn:Ei; [|discriminate]. cbn [posn] in k_pos0. destruct k_pos0 as (? & ? & ? & ?). lia. }
      assert (off < t_ackb s + flen t \/ (flen t = 0 /\ off = t_ackb s)) as Hf.
      { apply andb_false_iff in Cond as [C|C]; [|unfold buflen in C; lia].
        destruct (t_idx s) eqn:Ei; [|discriminate]. cbn [posn] in k_pos0. destruct k_pos0 as (? & ? & ? & ?). lia. }
      exists (set_ack s (t_ackb s) off), call; split; [reflexivity|]. split; [|repeat split; auto].
      * constructor; cbn [set_ack t_chunks t_nck t_outq t_ackb t_acko t_idx t_off t_unsent]; auto; try rewrite Eq; auto; lia.
      * rewrite Hcall. rewrite Z.min_l by lia; auto.
Qed.
