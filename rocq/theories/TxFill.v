(* The frame writers and nghttp3_stream_fill_outq against TxSpec *)
From Verif Require Import Base BaseLemmas ConvModel ConvSpec ConvProofs TxModel TxSpec TxProofs TxRefine.

Lemma varintlen_bound n k : put_varintlen n = Some k -> 1 <= k <= 8 /\ n < 2 ^ 62.
Proof.
  unfold put_varintlen. change (2 ^ 62) with 4611686018427387904.
  repeat match goal with |- context [if ?c then _ else _] => destruct c eqn:?; [intros [= <-]; lia|] end; discriminate.
Qed.
Lemma hd_len_bound ty n k : frame_write_hd_len ty n = Some k -> 2 <= k <= 16.
Proof.
  unfold frame_write_hd_len, bind. destruct (put_varintlen ty) eqn:E1; [|discriminate]. destruct (put_varintlen n) eqn:E2; [|discriminate].
  intros [= <-]. apply varintlen_bound in E1, E2; lia.
Qed.
Lemma pos_ne {A} (l : list A) : 0 < zlen l -> l <> []. Proof. intros H ->; rewrite zlen_nil in H; lia. Qed.
Lemma p64 : 2 ^ 62 + 1000 < 2 ^ 64. Proof. reflexivity. Qed.
Lemma mv62 : max_varint = 2 ^ 62 - 1. Proof. reflexivity. Qed.

Lemma write_settings_ok s w sent x : core s w sent -> frame_ok (FSettings x) ->
  exists f p, framed 4 p f /\ rfc_settings_payload p (announced x) /\
    if zlen w + zlen f <=? max_varint then exists s', write_settings s x = Ok s' /\ core s' (w ++ tag false f) sent /\ keeps s s'
    else write_settings s x = Err ERR_STREAM_DATA_OVERFLOW.
Proof.
  intros K (H1 & H2 & H3).
  assert (Forall (fun e => 0 <= fst e < 2 ^ 62 /\ 0 <= snd e < 2 ^ 62) (settings_iv x)) as Hiv.
  { unfold settings_iv. assert (forall n, 0 <= n <= 1000 -> 0 <= n < 2 ^ 62) as Hs by (intros; lia).
    apply Forall_app; split; [repeat constructor; cbn [fst snd]; try lia|].
    apply Forall_app; split; [destruct (s_dgram x)|destruct (s_conn x)]; repeat constructor; cbn [fst snd]; lia. }
  destruct (settings_len_total (settings_iv x) Hiv) as (n & total & El).
  { unfold settings_iv; rewrite !zlen_app. assert (zlen [(6, s_mfss x); (1, s_cap x); (7, s_blk x)] = 3) as -> by reflexivity.
    assert (zlen (if s_dgram x then [(51, 1)] else []) <= 1) by (destruct (s_dgram x); cbn; lia).
    assert (zlen (if s_conn x then [(8, 1)] else []) <= 1) by (destruct (s_conn x); cbn; lia). lia. }
  destruct (frame_settings_full _ _ _ Hiv El) as (f & p & Ef & Hb & Zf & Zp & Hp & Hr).
  exists f, p; split; [exact Hr|split; [exact Hp|]].
  unfold write_settings. rewrite El; cbn [must obind]. rewrite Ef; cbn [must obind].
  assert (2 <= total < 2 ^ 64) as Ht.
  { unfold frame_write_settings_len, bind in El. destruct (settings_payloadlen (settings_iv x)) as [m|]; [|discriminate].
    destruct (put_varintlen FRAME_SETTINGS) eqn:E1; [|discriminate]. destruct (put_varintlen m) eqn:E2; [|discriminate].
    injection El as <- <-. apply varintlen_bound in E1, E2. pose proof (zlen_nonneg _ p). pose proof p64. lia. }
  apply shared_ok; auto; [apply pos_ne|..]; lia.
Qed.
Lemma write_goaway_ok s w sent id : core s w sent -> frame_ok (FGoaway id) ->
  exists f p, framed 7 p f /\ rfc_varint p = Some (id, []) /\
    if zlen w + zlen f <=? max_varint then exists s', write_goaway s id = Ok s' /\ core s' (w ++ tag false f) sent /\ keeps s s'
    else write_goaway s id = Err ERR_STREAM_DATA_OVERFLOW.
Proof.
  intros K H. destruct (frame_goaway_correct id H) as (n & total & f & p & El & Ef & Hb & Zf & Zp & Hp & Hr).
  exists f, p; split; [exact Hr|split; [exact Hp|]].
  unfold write_goaway. rewrite El; cbn [must obind]. rewrite Ef; cbn [must obind].
  assert (2 <= total < 2 ^ 64) as Ht.
  { unfold frame_write_goaway_len, bind in El. destruct (put_varintlen id) as [m|] eqn:E0; [|discriminate].
    destruct (put_varintlen FRAME_GOAWAY) eqn:E1; [|discriminate]. destruct (put_varintlen m) eqn:E2; [|discriminate].
    injection El as <- <-. apply varintlen_bound in E0, E1, E2. pose proof p64. lia. }
  apply shared_ok; auto; [apply pos_ne|..]; lia.
Qed.
Lemma write_prio_ok s w sent id data : core s w sent -> frame_ok (FPrio id data) ->
  exists f p, framed 0xf0700 p f /\ rfc_varint p = Some (id, data) /\
    if zlen w + zlen f <=? max_varint then exists s', write_prio s id data = Ok s' /\ core s' (w ++ tag false f) sent /\ keeps s s'
    else write_prio s id data = Err ERR_STREAM_DATA_OVERFLOW.
Proof.
  intros K (H & Hd & Hz).
  assert (exists n total, frame_write_priority_update_len FRAME_PRIORITY_UPDATE id data = Some (n, total) /\ 2 <= total < 2 ^ 64) as (n & total & El & Ht).
  { unfold frame_write_priority_update_len, bind. destruct (put_varintlen_total id H) as (k & Ek & Hk). rewrite Ek.
    destruct (put_varintlen FRAME_PRIORITY_UPDATE) eqn:E1; [|discriminate].
    assert (0 <= k + zlen data < 2 ^ 62) as Hs by (pose proof (zlen_nonneg _ data); change (2 ^ 62) with (2 ^ 61 + 2305843009213693952); lia).
    destruct (put_varintlen_total _ Hs) as (j & Ej & Hj). rewrite Ej. do 2 eexists; split; [reflexivity|].
    apply varintlen_bound in E1. pose proof p64. lia. }
  assert (wire_int FRAME_PRIORITY_UPDATE) as Hw by (unfold wire_int, FRAME_PRIORITY_UPDATE; lia).
  destruct (frame_priority_update_correct _ id data n total Hw H Hd El) as (f & p & Ef & Hb & Zf & Zp & Hp & Hr).
  exists f, p; split; [exact Hr|split; [exact Hp|]].
  unfold write_prio. rewrite El; cbn [must obind]. rewrite Ef; cbn [must obind].
  apply shared_ok; auto; [apply pos_ne|..]; lia.
Qed.
Lemma core_set_nenc s w sent k : core s w sent -> core (set_nenc s k) w sent.
Proof. intros []; constructor; auto. Qed.
Lemma core_set_nrd s w sent k : core s w sent -> core (set_nrd s k) w sent.
Proof. intros []; constructor; auto. Qed.
Lemma core_set_end s w sent k : core s w sent -> core (set_end s k) w sent.
Proof. intros []; constructor; auto. Qed.
Lemma core_set_frq s w sent k : core s w sent -> core (set_frq s k) w sent.
Proof. intros []; constructor; auto. Qed.
Lemma core_set_rdblk s w sent k : core s w sent -> core (set_rdblk s k) w sent.
Proof. intros []; constructor; auto. Qed.

Lemma write_headers_ok E s w sent nva : core s w sent -> env_ok E -> nva <> [] ->
  match te_enc E (t_nenc s) nva with
  | Ok (p, r, e) => exists f, framed 1 (p ++ r) f /\ 0 < zlen f /\
    if zlen w + zlen f <=? max_varint then exists s', write_headers E s nva = Ok (s', e) /\ core s' (w ++ tag false f) sent /\ keeps (set_nenc s (S (t_nenc s))) s'
    else write_headers E s nva = Err ERR_STREAM_DATA_OVERFLOW
  | Err e => write_headers E s nva = Err e
  | Abort => False
  end.
Proof.
  intros K (HE1 & HE2 & _) Hnva. unfold write_headers. destruct (te_enc E (t_nenc s) nva) as [[[p r] e]|e|] eqn:Ee; [|reflexivity|exact (HE1 _ _ Ee)].
  destruct (HE2 _ _ _ _ _ Hnva Ee) as (Bp & Br & Rn & Hl). cbn [obind].
  assert (0 <= FRAME_HEADERS < 2 ^ 62) as Hty by (unfold FRAME_HEADERS; lia).
  assert (bytes (p ++ r)) as Hbs by (apply bytes_app; auto).
  destruct (frame_hd_full FRAME_HEADERS (p ++ r) Hty) as (hd & Eh & Hbh & El & Hr); [rewrite zlen_app; auto|auto|].
  rewrite zlen_app in Eh, El. exists (hd ++ p ++ r).
  split; [intros rest Hrest; rewrite <- app_assoc; apply Hr; auto|].
  pose proof (hd_len_bound _ _ _ El) as Hlen. pose proof (zlen_nonneg _ p); pose proof (zlen_nonneg _ r); pose proof p64.
  assert (0 < zlen r) by (destruct r; [congruence|rewrite zlen_cons; pose proof (zlen_nonneg _ r); lia]).
  split; [rewrite zlen_app; pose proof (zlen_nonneg _ (p ++ r)); lia|].
  rewrite El, Eh; cbn [must obind].
  set (s1 := set_nenc s (S (t_nenc s))). assert (core s1 w sent) as K1 by (apply core_set_nenc; auto).
  assert (zlen (hd ++ p ++ r) = zlen hd + zlen p + zlen r) as Zf by (rewrite !zlen_app; lia).
  destruct (Z.leb_spec (zlen r) MAX_COPY_THRES) as [Hc|Hc].
  - (* copied *)
    destruct (reserve_write s1 w sent (zlen hd + zlen p + zlen r) (hd ++ p ++ r) K1) as (s2 & id & a & E2 & Hs & Nd & Lt & Ha & Rp);
      [apply pos_ne; lia|lia|lia|].
    destruct (Z.ltb_spec MAX_COPY_THRES (zlen r)); [lia|]. destruct (Z.eqb_spec (zlen r) 0); [lia|]. cbn [negb].
    pose proof E2 as E2'. rewrite app_assoc in E2'. apply chunk_write_app in E2' as (s3 & E3 & E4). rewrite <- app_assoc in E4.
    rewrite E3; cbn [obind]. rewrite E4; cbn [obind].
    pose proof (add_shared s1 w sent s2 id a (hd ++ p ++ r) K1) as Ha2.
    specialize (Ha2 ltac:(apply pos_ne; lia) Ha Hs Nd Lt Rp).
    destruct (zlen w + zlen (hd ++ p ++ r) <=? max_varint).
    + destruct Ha2 as (s' & Es & Ks & Kk). rewrite Es; cbn [obind]. exists s'; auto.
    + rewrite Ha2; reflexivity.
  - (* not copied *)
    destruct (reserve_write s1 w sent (zlen hd + zlen p) (hd ++ p) K1) as (s2 & id & a & E2 & Hs & Nd & Lt & Ha & Rp);
      [apply pos_ne; rewrite zlen_app; lia|rewrite zlen_app; lia|lia|].
    rewrite E2; cbn [obind]. destruct (Z.ltb_spec MAX_COPY_THRES (zlen r)); [|lia].
    pose proof (add_shared s1 w sent s2 id a (hd ++ p) K1) as Ha2.
    specialize (Ha2 ltac:(apply pos_ne; rewrite zlen_app; lia) Ha Hs Nd Lt Rp).
    assert (zlen (hd ++ p) = zlen hd + zlen p) as Zhp by apply zlen_app.
    destruct (Z.leb_spec (zlen w + zlen (hd ++ p)) max_varint) as [L1|L1].
    + destruct Ha2 as (s3 & Es & Ks & Kk). rewrite Es; cbn [obind].
      pose proof (add_plain s3 (w ++ tag false (hd ++ p)) sent BPrivate r Ks ltac:(discriminate) ltac:(left; auto)) as Hp.
      rewrite zlen_app, zlen_tag in Hp.
      destruct (Z.leb_spec (zlen w + zlen (hd ++ p ++ r)) max_varint) as [L2|L2];
        destruct (Z.leb_spec (zlen w + zlen (hd ++ p) + zlen r) max_varint) as [L3|L3]; try lia.
      * destruct Hp as (s4 & E4 & K4 & Kk4). rewrite E4; cbn [obind]. exists s4; split; [reflexivity|]. split.
        -- rewrite app_assoc, tag_app, app_assoc; exact K4.
        -- eapply keeps_trans; eauto.
      * rewrite Hp; reflexivity.
    + rewrite Ha2; cbn [obind]. destruct (Z.leb_spec (zlen w + zlen (hd ++ p ++ r)) max_varint); [lia|reflexivity].
Qed.
Lemma vec_len_ok vecs : forall res, 0 <= res <= max_varint ->
  vec_len_varint res vecs = if res + zlen (concat vecs) <=? max_varint then Some (res + zlen (concat vecs)) else None.
Proof.
  induction vecs as [|v vs IH]; intros res H; cbn [vec_len_varint concat].
  - rewrite zlen_nil, Z.add_0_r. destruct (Z.leb_spec res max_varint); [auto|lia].
  - rewrite zlen_app. pose proof (zlen_nonneg _ v); pose proof (zlen_nonneg _ (concat vs)).
    destruct (Z.ltb_spec (max_varint - res) (zlen v)).
    + destruct (Z.leb_spec (res + (zlen v + zlen (concat vs))) max_varint); [lia|auto].
    + rewrite IH by lia. rewrite Z.add_assoc; auto.
Qed.
Lemma add_aliens_ok vecs : forall s w sent, core s w sent ->
  if zlen w + zlen (concat vecs) <=? max_varint then
    exists s', add_aliens s vecs = Ok s' /\ core s' (w ++ tag true (concat vecs)) sent /\ keeps s s'
  else add_aliens s vecs = Err ERR_STREAM_DATA_OVERFLOW.
Proof.
  induction vecs as [|v vs IH]; intros s w sent K; cbn [add_aliens concat].
  - rewrite zlen_nil, Z.add_0_r. pose proof (k_max _ _ _ K). destruct (Z.leb_spec (zlen w) max_varint); [|lia].
    exists s; cbn [tag map]; rewrite app_nil_r; auto using keeps_refl.
  - destruct (Z.eqb_spec (zlen v) 0) as [Z0|Z0].
    + apply zlen_0 in Z0; subst v; cbn [app]. apply IH; auto.
    + pose proof (zlen_nonneg _ v); pose proof (zlen_nonneg _ (concat vs)).
      pose proof (add_plain s w sent BAlien v K ltac:(discriminate) ltac:(left; apply pos_ne; lia)) as Hp.
      rewrite zlen_app. destruct (Z.leb_spec (zlen w + zlen v) max_varint) as [L|L].
      * destruct Hp as (s1 & E1 & K1 & Kk). rewrite E1; cbn [obind]. specialize (IH s1 _ _ K1). rewrite zlen_app, zlen_tag in IH.
        rewrite Z.add_assoc. destruct (zlen w + zlen v + zlen (concat vs) <=? max_varint); [|exact IH].
        destruct IH as (s2 & E2 & K2 & Kk2). exists s2; split; [auto|]. rewrite tag_app, app_assoc. split; auto. eapply keeps_trans; eauto.
      * rewrite Hp; cbn [obind]. destruct (Z.leb_spec (zlen w + (zlen v + zlen (concat vs))) max_varint); [lia|reflexivity].
Qed.

(* a stream and its flat form *)
Record tied (s : txs) (a : ast) (sent : Z) : Prop := {
  ti_core : core s (a_wire a) sent; ti_frq : t_frq s = a_pend a; ti_end : t_end s = a_end a; ti_blk : t_rdblk s = a_blk a;
  ti_enc : t_nenc s = a_enc a; ti_rd : t_nrd s = a_rd a; ti_ok : Forall frame_ok (a_pend a) }.

(* one DATA frame entry *)
Lemma write_data_ok E s w en k j fs sent : env_ok E -> tied s (mk_a (FData :: fs) w en false k j) sent ->
  match write_data E s with
  | Ok (s', eof) => exists a', emit E (mk_a (FData :: fs) w en false k j) [] a' /\ zlen (a_wire a') <= max_varint /\ t_acko s' = t_acko s /\
      tied (if a_blk a' || negb eof then s' else set_frq s' fs) a' sent /\ t_rdblk s' = a_blk a' /\
      (if a_blk a' then a_pend a' = FData :: fs else if eof then a_pend a' = fs else zlen w < zlen (a_wire a'))
  | Err e => emit_fails E (mk_a (FData :: fs) w en false k j) e
  | Abort => False
  end.
Proof.
  intros (_ & _ & HE) [K Hf He Hb Hk Hj Hok]. cbn [a_wire a_pend a_end a_blk a_enc a_rd] in *.
  unfold write_data. rewrite Hb, Hj. destruct (te_rd E j) as [e|vecs eof ne] eqn:Er.
  - destruct (Z.eqb_spec e ERR_WOULDBLOCK) as [-> |Ne].
    + exists (mk_a (FData :: fs) w en true k (S j)). split; [apply em_block; auto|]. split; [destruct K; auto|]. split; [reflexivity|]. split; [|split; reflexivity].
      constructor; cbn [a_wire a_pend a_end a_blk a_enc a_rd set_rdblk set_nrd t_frq t_end t_rdblk t_nenc t_nrd orb]; auto.
      apply core_set_rdblk, core_set_nrd; auto.
    + eapply ef_rd; eauto.
  - destruct (HE _ _ _ _ Er) as [Hby Hpr].
    pose proof (vec_len_ok vecs 0 ltac:(pose proof mv62; lia)) as Hv. rewrite Z.add_0_l in Hv. rewrite Hv; clear Hv.
    destruct (Z.leb_spec (zlen (concat vecs)) max_varint) as [Lv|Lv]; [|eapply ef_len; eauto].
    assert (bytes (concat vecs)) as Hbc.
    { clear - Hby. induction Hby; cbn [concat]; [constructor|apply bytes_app; auto]. }
    destruct ((zlen (concat vecs) =? 0) && negb eof) eqn:C0.
    { apply andb_prop in C0 as [C0 C1]. apply Z.eqb_eq, zlen_0 in C0. destruct Hpr as [Hpr|Hpr]; [congruence|subst eof; discriminate]. }
    set (s1 := set_nrd s (S j)). set (s2 := if eof && negb ne then set_end s1 true else s1).
    assert (core s2 w sent /\ t_frq s2 = FData :: fs /\ t_end s2 = en || (eof && negb ne) /\ t_rdblk s2 = false /\ t_nenc s2 = k /\ t_nrd s2 = S j /\ t_acko s2 = t_acko s) as (K2 & F2 & N2 & B2 & C2 & D2 & A2).
    { unfold s2. destruct (eof && negb ne); cbn [s1 set_end set_nrd t_frq t_end t_rdblk t_nenc t_nrd].
      - split; [apply core_set_end, core_set_nrd; auto|]. rewrite orb_true_r; auto 10.
      - split; [apply core_set_nrd; auto|]. rewrite orb_false_r; auto 10. }
    pose proof (Forall_inv_tail Hok) as Hok'.
    destruct (Z.eqb_spec (zlen (concat vecs)) 0) as [Z0|Z0].
    + apply zlen_0 in Z0. destruct eof; [|discriminate]. cbn [andb] in *. clear C0.
      assert (emit E (mk_a (FData :: fs) w en false k j) [] (mk_a fs w (en || negb ne) false k (S j))) as Hem by (eapply em_eof; eauto).
      destruct (negb ne && write_done s2) eqn:Cw.
      * apply andb_prop in Cw as [_ Cw].
        pose proof (add_plain s2 w sent BPrivate [] K2 ltac:(discriminate) ltac:(right; auto)) as Hp.
        rewrite zlen_nil, Z.add_0_r in Hp. pose proof (k_max _ _ _ K). destruct (Z.leb_spec (zlen w) max_varint); [|lia].
        destruct Hp as (s3 & E3 & K3 & Kk). rewrite E3; cbn [obind]. cbn [tag map] in K3; rewrite app_nil_r in K3.
        destruct Kk as (G1 & G2 & G3 & G4 & G5 & G6 & G7).
        exists (mk_a fs w (en || negb ne) false k (S j)). split; [exact Hem|]. split; [auto|]. split; [congruence|]. split; [|split; [cbn; congruence|reflexivity]].
        constructor; cbn [a_wire a_pend a_end a_blk a_enc a_rd set_frq t_frq t_end t_rdblk t_nenc t_nrd orb negb]; auto; try congruence.
        apply core_set_frq; auto.
      * exists (mk_a fs w (en || negb ne) false k (S j)). pose proof (k_max _ _ _ K). split; [exact Hem|]. split; [auto|]. split; [congruence|]. split; [|split; [cbn; congruence|reflexivity]].
        constructor; cbn [a_wire a_pend a_end a_blk a_enc a_rd set_frq t_frq t_end t_rdblk t_nenc t_nrd orb negb]; auto; try congruence.
        apply core_set_frq; auto.
    + rewrite andb_false_r.
      assert (0 <= FRAME_DATA < 2 ^ 62) as Hty by (unfold FRAME_DATA; lia).
      destruct (frame_hd_full FRAME_DATA (concat vecs) Hty) as (hd & Eh & Hbh & El & Hr); [pose proof mv62; lia|auto|].
      pose proof (hd_len_bound _ _ _ El) as Hlen. rewrite El, Eh; cbn [must obind].
      assert (concat vecs <> []) as Hne by (intros Hx; rewrite Hx in Z0; apply Z0; reflexivity).
      set (a' := mk_a (if eof then fs else FData :: fs) (w ++ tag false hd ++ tag true (concat vecs)) (en || (eof && negb ne)) false k (S j)).
      assert (emit E (mk_a (FData :: fs) w en false k j) [] a') as Hem.
      { apply em_data; auto. intros rest Hrest. rewrite <- app_assoc. apply Hr; auto. }
      assert (zlen (a_wire a') = zlen w + zlen hd + zlen (concat vecs)) as Zw by (cbn [a' a_wire]; rewrite !zlen_app, !zlen_tag; lia).
      pose proof (zlen_nonneg _ (concat vecs)).
      pose proof (shared_ok s2 w sent (zlen hd) hd K2 ltac:(apply pos_ne; lia) ltac:(lia) ltac:(pose proof p64; lia)) as Hs.
      destruct (Z.leb_spec (zlen w + zlen hd) max_varint) as [L1|L1].
      * destruct Hs as (s3 & E3 & K3 & Kk3). rewrite E3; cbn [obind].
        pose proof (add_aliens_ok vecs s3 _ sent K3) as Ha. rewrite zlen_app, zlen_tag in Ha.
        destruct (Z.leb_spec (zlen w + zlen hd + zlen (concat vecs)) max_varint) as [L2|L2].
        -- destruct Ha as (s4 & E4 & K4 & Kk4). rewrite E4; cbn [obind].
           destruct (keeps_trans _ _ _ Kk3 Kk4) as (G1 & G2 & G3 & G4 & G5 & G6 & G7).
           exists a'. split; [exact Hem|]. split; [lia|]. split; [congruence|].
           cbn [a_blk a' orb]. split; [|split; [congruence|]].
           ++ rewrite <- app_assoc in K4.
              unfold a'; destruct eof; cbn [negb]; constructor; cbn [a_wire a_pend a_end a_blk a_enc a_rd set_frq t_frq t_end t_rdblk t_nenc t_nrd]; auto; try congruence; try (apply core_set_frq; auto).
           ++ destruct eof; [reflexivity|lia].
        -- rewrite Ha; cbn [obind]. eapply ef_off; [exact Hem|lia].
      * rewrite Hs; cbn [obind]. eapply ef_off; [exact Hem|lia].
Qed.

Lemma app_grows {A} (a b : list A) : zlen a <= zlen (a ++ b).
Proof. rewrite zlen_app; pose proof (zlen_nonneg _ b); lia. Qed.
Lemma emit_grows E a es b : emit E a es b -> zlen (a_wire a) <= zlen (a_wire b).
Proof. destruct 1; cbn [a_wire]; auto using app_grows; lia. Qed.
Lemma fill_ok E : env_ok E -> forall frq s a sent, tied s a sent -> frq = a_pend a -> a_blk a = false ->
  match fill_loop E frq s with
  | Ok (s', es) => exists a', emits E a es a' /\ tied s' a' sent /\ t_acko s' = t_acko s /\ zlen (a_wire a) <= zlen (a_wire a') /\
      (zlen (a_wire a') = sent -> a_pend a' = [] \/ a_blk a' = true)
  | Err e => exists es b, emits E a es b /\ emit_fails E b e
  | Abort => False
  end.
Proof.
  intros HE frq; induction frq as [|fr frq IH]; intros s a sent T Ef Eb; cbn [fill_loop].
  - exists a; repeat split; auto using ems_refl; try apply T; lia.
  - destruct a as [pend w en bl k j]; cbn [a_pend a_blk] in Ef, Eb; subst pend bl.
    pose proof (ti_core _ _ _ T) as K; cbn [a_wire] in K.
    destruct (Z.leb_spec MIN_UNSENT_BYTES (t_unsent s)) as [Lu|Lu].
    { exists (mk_a (fr :: frq) w en false k j). repeat split; auto using ems_refl; try apply T; cbn [a_wire]; [lia|].
      intros Hx. rewrite (k_uns _ _ _ K) in Lu. unfold MIN_UNSENT_BYTES in Lu; lia. }
    pose proof (ti_ok _ _ _ T) as Hok; cbn [a_pend] in Hok. pose proof (Forall_inv Hok) as Hfr; pose proof (Forall_inv_tail Hok) as Hok'.
    (* the three plain frames *)
    assert (forall r f a', (if zlen w + zlen f <=? max_varint then exists s', r = Ok s' /\ core s' (w ++ tag false f) sent /\ keeps s s'
                         else r = Err ERR_STREAM_DATA_OVERFLOW) ->
              a' = mk_a frq (w ++ tag false f) en false k j ->
              emit E (mk_a (fr :: frq) w en false k j) [] a' ->
              match (let! s0 := r in fill_loop E frq (set_frq s0 frq)) with
              | Ok (s', es) => exists a', emits E (mk_a (fr :: frq) w en false k j) es a' /\ tied s' a' sent /\ t_acko s' = t_acko s /\ zlen w <= zlen (a_wire a') /\
                  (zlen (a_wire a') = sent -> a_pend a' = [] \/ a_blk a' = true)
              | Err e => exists es b, emits E (mk_a (fr :: frq) w en false k j) es b /\ emit_fails E b e
              | Abort => False
              end) as Plain.
    { intros r f a' Hr Ea Hem. assert (zlen (a_wire a') = zlen w + zlen f) as Zw by (subst a'; cbn [a_wire]; rewrite zlen_app, zlen_tag; auto).
      pose proof (zlen_nonneg _ f).
      destruct (Z.leb_spec (zlen w + zlen f) max_varint) as [L|L].
      - destruct Hr as (s1 & -> & K1 & (G1 & G2 & G3 & G4 & G5 & G6 & G7)). cbn [obind].
        assert (tied (set_frq s1 frq) a' sent) as T1.
        { destruct T as [_ T1 T2 T3 T4 T5 _]. cbn [a_wire a_pend a_end a_blk a_enc a_rd] in *.
          subst a'. constructor; cbn [set_frq t_frq t_end t_rdblk t_nenc t_nrd a_wire a_pend a_end a_blk a_enc a_rd]; auto; try congruence.
          apply core_set_frq; auto. }
        specialize (IH _ _ _ T1 ltac:(subst a'; reflexivity) ltac:(subst a'; reflexivity)).
        destruct (fill_loop E frq (set_frq s1 frq)) as [[s2 es]|e|].
        + destruct IH as (a2 & I1 & I2 & I3 & I4 & I5). exists a2. split; [change es with ([] ++ es); eapply ems_step; eauto; lia|]. repeat split; auto; try apply I2; [cbn [set_frq t_acko] in I3; congruence|lia].
        + destruct IH as (es & b & I1 & I2). exists es, b; split; auto. change es with ([] ++ es); eapply ems_step; eauto; lia.
        + auto.
      - rewrite Hr; cbn [obind]. eexists [], _; split; [apply ems_refl|]. eapply ef_off; eauto; lia. }
    destruct fr as [x|nva| |id|id data].
    + destruct (write_settings_ok s w sent x K Hfr) as (f & p & H1 & H2 & H3). eapply Plain; eauto. eapply em_settings; eauto.
    + pose proof (write_headers_ok E s w sent nva K HE Hfr) as Hh.
      pose proof (ti_enc _ _ _ T) as Hk; cbn [a_enc] in Hk. rewrite Hk in *.
      destruct (te_enc E k nva) as [[[p r] e]|e|] eqn:Ee; [|rewrite Hh; cbn [obind]; eexists [], _; split; [apply ems_refl|eapply ef_enc; eauto]|contradiction].
      destruct Hh as (f & Hfm & Hfp & Hr).
      assert (emit E (mk_a (FHeaders nva :: frq) w en false k j) [e] (mk_a frq (w ++ tag false f) en false (S k) j)) as Hem by (eapply em_headers; eauto).
      assert (zlen (w ++ tag false f) = zlen w + zlen f) as Zw by (rewrite zlen_app, zlen_tag; auto).
      destruct (Z.leb_spec (zlen w + zlen f) max_varint) as [L|L].
      * destruct Hr as (s1 & -> & K1 & (G1 & G2 & G3 & G4 & G5 & G6 & G7)). cbn [obind].
        cbn [set_nenc t_frq t_rdblk t_end t_nenc t_nrd t_acko t_ackb] in *.
        assert (tied (set_frq s1 frq) (mk_a frq (w ++ tag false f) en false (S k) j) sent) as T1.
        { destruct T as [_ T1 T2 T3 T4 T5 _]. cbn [a_wire a_pend a_end a_blk a_enc a_rd] in *.
          constructor; cbn [set_frq t_frq t_end t_rdblk t_nenc t_nrd a_wire a_pend a_end a_blk a_enc a_rd]; auto; try congruence.
          apply core_set_frq; auto. }
        specialize (IH _ _ _ T1 eq_refl eq_refl).
        destruct (fill_loop E frq (set_frq s1 frq)) as [[s2 es]|e2|]; cbn [obind].
        -- destruct IH as (a2 & I1 & I2 & I3 & I4 & I5). exists a2. split; [change (e :: es) with ([e] ++ es); eapply ems_step; eauto; cbn [a_wire]; lia|].
           cbn [a_wire] in *. repeat split; auto; try apply I2; [cbn [set_frq t_acko] in I3; congruence|lia].
        -- destruct IH as (es & b & I1 & I2). exists ([e] ++ es), b; split; auto. eapply ems_step; eauto; cbn [a_wire]; lia.
        -- auto.
      * rewrite Hr; cbn [obind]. eexists [], _; split; [apply ems_refl|]. eapply ef_off; eauto; cbn [a_wire]; lia.
    + pose proof (write_data_ok E s w en k j frq sent HE T) as Hd.
      destruct (write_data E s) as [[s1 eof]|e|]; cbn [obind]; [|eexists [], _; split; [apply ems_refl|exact Hd]|contradiction].
      destruct Hd as (a1 & Hem & Hz & Ha & T1 & Hb & Hc). rewrite Hb.
      assert (zlen w <= zlen (a_wire a1)) as Hw1 by (apply emit_grows in Hem; exact Hem).
      assert (emits E (mk_a (FData :: frq) w en false k j) [] a1) as Hems by (change (@nil (list Z)) with (@nil (list Z) ++ []); eapply ems_step; eauto using ems_refl).
      destruct (a_blk a1) eqn:Eb1; cbn [orb] in T1.
      * exists a1. repeat split; auto; try apply T1.
      * destruct eof; cbn [negb] in T1 |- *.
        -- specialize (IH _ _ _ T1 ltac:(congruence) Eb1). destruct (fill_loop E frq (set_frq s1 frq)) as [[s2 es]|e|].
           ++ destruct IH as (a2 & I1 & I2 & I3 & I4 & I5). exists a2. split; [change es with ([] ++ es); eapply ems_step; eauto|].
              cbn [a_wire] in *. repeat split; auto; try apply I2; [cbn [set_frq t_acko] in I3; congruence|lia].
           ++ destruct IH as (es & b & I1 & I2). exists es, b; split; auto. change es with ([] ++ es); eapply ems_step; eauto.
           ++ auto.
        -- exists a1. repeat split; auto; try apply T1. destruct K. lia.
    + destruct (write_goaway_ok s w sent id K Hfr) as (f & p & H1 & H2 & H3). eapply Plain; eauto. eapply em_goaway; eauto.
    + destruct (write_prio_ok s w sent id data K Hfr) as (f & p & H1 & H2 & H3). eapply Plain; eauto. eapply em_prio; eauto.
Qed.
