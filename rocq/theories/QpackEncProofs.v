(* Encoding one field: what is written, and that a decoder reads it back. *)
From Verif Require Import Base BaseLemmas Tables ConvProofs QpackIntModel QpackIntSpec QpackIntProofs
  HuffModel HuffSpec HuffProofs QpackTabModel QpackTabSpec QpackTabProofs QpackDynSpec QpackDynProofs
  Chunk QpackDecModel QpackReadProofs QpackDecProofs QpackSecProofs QpackHistModel QpackHistProofs QpackCutProofs QpackEncModel
  QpackWireProofs QpackEncSpec.

(* ---------------- absolute indices ---------------- *)
Lemma contents_len c : zlen (contents c) = zlen (dtable c).
Proof. unfold contents, zlen. rewrite map_length. reflexivity. Qed.
Lemma at_range c i f : at_index c i f -> next_absidx c - zlen (dtable c) <= i < next_absidx c.
Proof.
  intros [R E]. assert (X : nth_error (contents c) (Z.to_nat (next_absidx c - 1 - i)) <> None) by congruence.
  apply nth_error_Some in X. pose proof (contents_len c). unfold zlen in *. lia.
Qed.
Lemma at_get c i f : ctx_wf c -> at_index c i f ->
  exists e, dtable_get c i = Some e /\ kv e = f /\ e_abs e = i /\ e_token e = lookup_token (e_name e) /\ bytes (e_name e) /\ bytes (e_value e).
Proof.
  intros W A. pose proof (at_range c i f A) as R. destruct (dtable_get_some c i W R) as (e & G & N & _).
  destruct (dtable_get_inv c i e W G) as (_ & _ & Ea & Et & Bn & Bv). exists e. split; [auto|].
  split; [|auto]. destruct A as [_ A]. unfold contents in A.
  rewrite nth_error_map in A. replace (next_absidx c - 1 - i) with (next_absidx c - i - 1) in A by lia. rewrite N in A.
  cbn [option_map] in A. congruence.
Qed.
Lemma get_at c i e : ctx_wf c -> dtable_get c i = Some e -> at_index c i (kv e).
Proof.
  intros W G. destruct (dtable_get_inv c i e W G) as (R & N & _). pose proof (tab_at_len _ _ _ (wf_tab c W)).
  split; [lia|]. unfold contents. rewrite nth_error_map. replace (next_absidx c - 1 - i) with (next_absidx c - i - 1) by lia. rewrite N. reflexivity.
Qed.
Lemma at_ex c i : ctx_wf c -> next_absidx c - zlen (dtable c) <= i < next_absidx c -> exists f, at_index c i f.
Proof. intros W R. destruct (dtable_get_some c i W R) as (e & G & _). exists (kv e). apply get_at; auto. Qed.
Lemma at_in c e : ctx_wf c -> In e (dtable c) -> at_index c (e_abs e) (kv e) /\ e_token e = lookup_token (e_name e).
Proof.
  intros W H. apply In_nth_error in H as [k H]. destruct (tab_at_nth _ _ _ _ _ (wf_tab c W) H) as (A & B & _).
  split; [|auto]. pose proof (tab_at_len _ _ _ (wf_tab c W)) as L.
  assert (X : (k < length (dtable c))%nat) by (apply nth_error_Some; congruence). unfold zlen in L.
  split; [lia|]. unfold contents. rewrite nth_error_map. replace (Z.to_nat (next_absidx c - 1 - e_abs e)) with k by lia. rewrite H. reflexivity.
Qed.
Lemma at_contents c1 c2 i f : next_absidx c1 = next_absidx c2 -> contents c1 = contents c2 -> at_index c1 i f -> at_index c2 i f.
Proof. unfold at_index. intros -> ->. auto. Qed.
(* a table that lost its oldest entries *)
Lemma at_prefix c c' t i f : next_absidx c' = next_absidx c -> contents c = contents c' ++ t ->
  at_index c' i f -> at_index c i f.
Proof.
  unfold at_index. intros -> -> [R H]. split; [auto|]. rewrite nth_error_app1; auto. apply nth_error_Some. congruence.
Qed.
Lemma at_prefix_keep c c' t i f : next_absidx c' = next_absidx c -> contents c = contents c' ++ t ->
  next_absidx c - i <= zlen (dtable c') -> at_index c i f -> at_index c' i f.
Proof.
  unfold at_index. intros E Ec L [R H]. rewrite E. split; [auto|]. rewrite Ec in H. rewrite <- contents_len in L. unfold zlen in L.
  rewrite nth_error_app1 in H by lia. exact H.
Qed.

Lemma fit_keeps l : forall k room, (k <= length l)%nat -> tsize (firstn k l) <= room -> (k <= length (fit l room))%nat.
Proof.
  induction l as [|e l IH]; intros k room H1 H2; [cbn in *; lia|].
  destruct k as [|k]; [lia|]. cbn [firstn] in H2. rewrite tsize_cons in H2. cbn [fit].
  pose proof (tsize_nonneg (firstn k l)). destruct (Z.leb_spec (ent_space e) room); [|lia].
  cbn [length] in *. specialize (IH k (room - ent_space e) ltac:(lia) ltac:(lia)). lia.
Qed.
Lemma fit_len l room : (length (fit l room) <= length l)%nat.
Proof. destruct (fit_prefix l room) as [t E]. rewrite E at 2. rewrite app_length. lia. Qed.
Lemma tsize_contents c : tsize (dtable c) = tab_size (contents c).
Proof. reflexivity. Qed.

(* ---------------- synchronised tables ---------------- *)
Record sync (v c : ctx) : Prop := {
  sy_v : ctx_ok v; sy_c : ctx_ok c; sy_next : next_absidx v = next_absidx c;
  sy_hard : hard_max v = hard_max c; sy_max : max_cap v = max_cap c; sy_tab : contents v = contents c }.

Lemma fit_contents l1 l2 room : map kv l1 = map kv l2 -> map kv (fit l1 room) = map kv (fit l2 room).
Proof. intros E. rewrite !fit_rfc, E. reflexivity. Qed.
Lemma new_at c c' e l t : ctx_wf c -> dtable c' = e :: l -> dtable c = l ++ t -> next_absidx c' = next_absidx c + 1 ->
  at_index c' (next_absidx c) (kv e) /\
  (forall i f, at_index c' i f -> i < next_absidx c -> at_index c i f) /\
  (forall i f, at_index c i f -> next_absidx c - i <= zlen l -> at_index c' i f).
Proof.
  intros W E1 E2 E3. pose proof (tab_at_len _ _ _ (wf_tab c W)) as TL. pose proof (zlen_nonneg _ (dtable c)).
  unfold at_index, contents. rewrite E1, E2, E3. cbn [map]. split; [|split].
  - split; [lia|]. replace (Z.to_nat (next_absidx c + 1 - 1 - next_absidx c)) with 0%nat by lia. reflexivity.
  - intros i f [R Hn] L. split; [lia|]. replace (Z.to_nat (next_absidx c + 1 - 1 - i)) with (S (Z.to_nat (next_absidx c - 1 - i))) in Hn by lia.
    cbn [nth_error] in Hn. rewrite map_app, nth_error_app1; auto. apply nth_error_Some. congruence.
  - intros i f [R Hn] L. split; [lia|]. replace (Z.to_nat (next_absidx c + 1 - 1 - i)) with (S (Z.to_nat (next_absidx c - 1 - i))) by lia.
    cbn [nth_error]. rewrite map_app, nth_error_app1 in Hn; auto. rewrite map_length. unfold zlen in L. lia.
Qed.
Lemma insert_sync v c n val hash : sync v c -> bytes n -> bytes val -> fld_size (n, val) <= max_cap c ->
  exists c' v', dtable_add c n val (lookup_token n) hash = Ok c' /\ dec_add v n val (lookup_token n) = Ok v' /\ sync v' c' /\
    next_absidx c' = next_absidx c + 1 /\ max_blocked c' = max_blocked c /\ bad c' = bad c /\ max_cap c' = max_cap c /\ hard_max c' = hard_max c /\
    at_index c' (next_absidx c) (n, val) /\
    (exists t, contents c = firstn (length (dtable c') - 1) (contents c) ++ t /\ contents c' = (n, val) :: firstn (length (dtable c') - 1) (contents c)) /\
    top_abs c' = Ok (next_absidx c) /\
    (forall i f, at_index c i f -> next_absidx c - i <= zlen (fit (dtable c) (max_cap c - fld_size (n, val))) -> at_index c' i f).
Proof.
  intros [Sv Sc Sn Sh Sm St] Bn Bv Hs.
  destruct (dtable_add_spec c n val (lookup_token n) hash (proj1 Sc) eq_refl Bn Bv Hs) as (c' & E & Ok' & D & Nx & Mc & Hm & Bd & Mb & Sum).
  pose proof (dec_add_spec v n val Sv Bn Bv) as DA. destruct (Z.gtb_spec (fld_size (n, val)) (max_cap v)); [lia|].
  destruct DA as (v' & E2 & Ok2 & D2 & Nx2 & Mc2 & Hm2 & _).
  destruct (fit_prefix (dtable c) (max_cap c - fld_size (n, val))) as [t Ht].
  destruct (new_at c c' _ _ t (proj1 Sc) D Ht Nx) as (A1 & A2 & A3).
  exists c', v'. split; [auto|]. split; [auto|]. split.
  { constructor; auto; try congruence. unfold contents. rewrite D, D2. cbn [map]. f_equal. rewrite Sm. apply fit_contents. exact St. }
  split; [auto|]. split; [auto|]. split; [auto|]. split; [auto|]. split; [auto|]. split; [exact A1|].
  split.
  { exists (map kv t). rewrite D. cbn [length]. replace (S _ - 1)%nat with (length (fit (dtable c) (max_cap c - fld_size (n, val)))) by lia.
    assert (F : firstn (length (fit (dtable c) (max_cap c - fld_size (n, val)))) (contents c) = map kv (fit (dtable c) (max_cap c - fld_size (n, val)))).
    { unfold contents. rewrite Ht at 2. rewrite map_app, firstn_app, map_length, Nat.sub_diag. cbn [firstn].
      rewrite app_nil_r. rewrite firstn_all2 by (rewrite map_length; lia). reflexivity. }
    rewrite F. split; [unfold contents; rewrite Ht at 1; apply map_app|]. unfold contents. rewrite D. reflexivity. }
  split; [|exact A3]. unfold top_abs. rewrite D. reflexivity.
Qed.

(* ---------------- qpack_encoder_can_index ---------------- *)
(* the table does not fit although everything that may be evicted is gone *)
Definition stuck (c : ctx) (g : option Z) : Prop :=
  dtable_size c > max_cap c /\ g = Some (next_absidx c - zlen (dtable c) + 1) /\ dtable c <> [].
Definition inr (c : ctx) (m : Z) : Prop := next_absidx c - zlen (dtable c) <= m - 1 < next_absidx c.
Definition protects (g : option Z) (mc i : Z) : Prop := (exists m, g = Some m /\ m - 1 <= i) \/ mc - 1 <= i.

Lemma last_sum c : ctx_wf c -> dtable c <> [] -> exists e l, rev (dtable c) = e :: l /\
  e_abs e = next_absidx c - zlen (dtable c) /\ dtable_sum c - e_sum e = tsize (dtable c).
Proof.
  intros W H. destruct (rev (dtable c)) as [|e l] eqn:E.
  - exfalso. apply H. apply (f_equal (@rev entry)) in E. rewrite rev_involutive in E. exact E.
  - exists e, l. split; [auto|]. assert (D : dtable c = rev l ++ [e]).
    { apply (f_equal (@rev entry)) in E. rewrite rev_involutive in E. exact E. }
    assert (N : nth_error (dtable c) (length (rev l)) = Some e) by (rewrite D, nth_error_app2, Nat.sub_diag by lia; reflexivity).
    destruct (tab_at_nth _ _ _ _ _ (wf_tab c W) N) as (A & _ & Sx & _).
    assert (Ln : length (dtable c) = S (length (rev l))) by (rewrite D, app_length; cbn; lia).
    split; [unfold zlen; lia|]. rewrite Sx. rewrite <- Ln, firstn_all. reflexivity.
Qed.
Lemma can_index_spec c g need mc : ctx_wf c -> next_absidx c < u64_max -> 0 < need ->
  (dtable_size c <= max_cap c \/ stuck c g) -> (forall m, g = Some m -> inr c m) -> (mc = u64_max \/ inr c mc) ->
  exists b, can_index c g need mc = Ok b /\ (b = true -> dtable_size c <= max_cap c /\ need <= max_cap c /\
    forall i, next_absidx c - zlen (dtable c) <= i < next_absidx c -> protects g mc i ->
      next_absidx c - i <= zlen (fit (dtable c) (max_cap c - need))).
Proof.
  intros W Hn Hd Hl Hg Hm. unfold can_index. pose proof (wf_cap c W) as Wc. pose proof (wf_size c W) as Ws.
  pose proof (tsize_nonneg (dtable c)) as Tn.
  destruct ((max_cap c >? dtable_size c) && (need <=? (if max_cap c >? dtable_size c then max_cap c - dtable_size c else 0))) eqn:E1.
  { exists true. split; [reflexivity|]. intros _. destruct (Z.gtb_spec (max_cap c) (dtable_size c)); [|discriminate].
    cbn [andb] in E1. apply Z.leb_le in E1. split; [lia|]. split; [lia|]. intros i R _. rewrite fit_all by lia. lia. }
  set (m := match g with Some x => Z.min mc x | None => mc end).
  assert (Hmin : m = u64_max /\ g = None /\ mc = u64_max \/ inr c m /\ (forall x, g = Some x -> m <= x) /\ m <= mc).
  { subst m. destruct g as [x|].
    - right. pose proof (Hg x eq_refl) as Hx. unfold inr in *. split; [|split; [intros y [= <-]; lia|lia]].
      destruct Hm as [-> |Hm]; [rewrite Z.min_r by lia|]; lia.
    - destruct Hm as [-> |Hm]; [left; auto|right; split; [auto|split; [discriminate|lia]]]. }
  destruct Hmin as [(Em & -> & Emc)|(Im & Gm & Cm)].
  { rewrite Em, Z.eqb_refl. exists (max_cap c >=? need). split; [reflexivity|]. intros B. apply Z.geb_le in B.
    assert (Sz : dtable_size c <= max_cap c) by (destruct Hl as [?|(_ & ? & _)]; [auto|discriminate]).
    split; [auto|]. split; [auto|]. intros i R [(x & [=] & _)|P]. rewrite Emc in P. lia. }
  destruct (Z.eqb_spec m u64_max); [unfold inr in Im; lia|].
  assert (Ne : dtable c <> []) by (intros X; unfold inr in Im; rewrite X, zlen_nil in Im; lia).
  destruct (last_sum c W Ne) as (le & ll & Er & La & Ls). rewrite Er.
  destruct (dtable_get_some c (m - 1) W Im) as (me & G & N & Ma & _). rewrite G.
  destruct (tab_at_nth _ _ _ _ _ (wf_tab c W) N) as (_ & _ & Sm & _).
  rewrite Ma, La. destruct (Z.eqb_spec (m - 1) (next_absidx c - zlen (dtable c))).
  { exists false. split; [reflexivity|discriminate]. }
  assert (Sz : dtable_size c <= max_cap c).
  { destruct Hl as [?|(_ & Eg & _)]; [auto|]. exfalso. pose proof (Gm _ Eg). unfold inr in Im. lia. }
  eexists. split; [reflexivity|]. intros B. apply Z.geb_le in B.
  set (k := Z.to_nat (next_absidx c - (m - 1) - 1)) in *.
  assert (Bb : tsize (firstn (S k) (dtable c)) <= max_cap c - need).
  { destruct (Z.gtb_spec (max_cap c) (dtable_size c)); lia. }
  pose proof (tsize_nonneg (firstn (S k) (dtable c))). split; [auto|]. split; [lia|].
  intros i R P.
  assert (K : (S k <= length (fit (dtable c) (max_cap c - need)))%nat).
  { apply fit_keeps; [|auto]. assert (X : (k < length (dtable c))%nat) by (apply nth_error_Some; congruence). lia. }
  assert (m - 1 <= i) by (destruct P as [(x & Hx & P)|P]; [pose proof (Gm x Hx)|]; lia).
  unfold zlen, inr in *. lia.
Qed.

(* ---------------- writers ---------------- *)
Lemma put_zlen N fb n : 3 <= N <= 8 -> is_byte fb -> 0 <= n < 2 ^ 62 ->
  zlen (q_put_varint fb n N) = q_put_varint_len n N /\ bytes (q_put_varint fb n N) /\
  forall rest, rfc_int N (q_put_varint fb n N ++ rest) = Some (n, rest).
Proof.
  intros HN Bf Hn. destruct (q_put_varint_full N fb n HN Bf Hn) as (B & L & _ & R & _). auto.
Qed.
Lemma write_number_ok fb n N : 3 <= N <= 8 -> is_byte fb -> 0 <= n < 2 ^ 62 ->
  write_number fb n N = Ok (q_put_varint fb n N).
Proof.
  intros HN Bf Hn. unfold write_number, wrote. destruct (put_zlen N fb n HN Bf Hn) as (-> & _). rewrite Z.eqb_refl. reflexivity.
Qed.
Lemma put_str_len fb s N : 3 <= N <= 7 -> fb_ok fb N = true -> bytes s -> zlen s < 2 ^ 62 ->
  zlen (put_str fb s N) = str_wlen s N /\ bytes (put_str fb s N) /\
  forall rest, rfc_string N (put_str fb s N ++ rest) = Some rest.
Proof.
  intros HN HF B L. destruct (fb_ok_spec fb N ltac:(lia) HF) as (F1 & F2 & F3 & _).
  assert (Bf : is_byte (if str_huff s then Z.lor fb (2 ^ N) else fb)) by (destruct (str_huff s); rewrite ?F3; auto).
  pose proof (str_n_range s B) as Rn. rewrite put_str_eq.
  destruct (put_zlen N _ (str_n s) ltac:(lia) Bf ltac:(lia)) as (E1 & E2 & E3).
  split; [|split].
  - rewrite zlen_app, E1, str_data_len by auto. reflexivity.
  - apply bytes_app; split; [auto|apply str_data_bytes; auto].
  - intros rest. unfold rfc_string. rewrite <- app_assoc, E3, zlen_app, str_data_len by auto.
    pose proof (zlen_nonneg _ rest). destruct (Z.leb_spec (str_n s) (str_n s + zlen rest)); [|lia].
    rewrite <- (str_data_len s B), zlen_length, skipn_app, skipn_all, Nat.sub_diag. reflexivity.
Qed.
Lemma value_len v : bytes v -> zlen v < 2 ^ 62 -> zlen (put_str 0 v 7) = str_wlen v 7 /\ bytes (put_str 0 v 7) /\
  forall rest, rfc_string 7 (put_str 0 v 7 ++ rest) = Some rest.
Proof. intros. apply put_str_len; auto; lia. Qed.
Lemma field_bounds h : field_ok h -> bytes (nv_name h) /\ bytes (nv_value h) /\ zlen (nv_name h) <= MAX_NAMELEN /\ zlen (nv_value h) <= MAX_VALUELEN /\
  zlen (nv_name h) < 2 ^ 62 /\ zlen (nv_value h) < 2 ^ 62.
Proof. intros (A & B & C & D). unfold MAX_NAMELEN, MAX_VALUELEN. repeat split; auto; lia. Qed.
Lemma write_indexed_name_ok fb n N h : 3 <= N <= 8 -> is_byte fb -> 0 <= n < 2 ^ 62 -> field_ok h ->
  write_indexed_name fb n N h = Ok (q_put_varint fb n N ++ put_str 0 (nv_value h) 7).
Proof.
  intros HN Bf Hn F. destruct (field_bounds h F) as (_ & Bv & _ & _ & _ & Lv). unfold write_indexed_name, wrote.
  destruct (put_zlen N fb n HN Bf Hn) as (L1 & _). destruct (value_len _ Bv Lv) as (L2 & _).
  rewrite zlen_app, L1, L2, Z.eqb_refl. reflexivity.
Qed.
Lemma write_literal_gen_ok fb N h : 3 <= N <= 7 -> fb_ok fb N = true -> field_ok h ->
  write_literal_gen fb N h = Ok (put_str fb (nv_name h) N ++ put_str 0 (nv_value h) 7).
Proof.
  intros HN HF F. destruct (field_bounds h F) as (Bn & Bv & _ & _ & Ln & Lv). unfold write_literal_gen, wrote.
  destruct (put_str_len fb _ N HN HF Bn Ln) as (L1 & _). destruct (value_len _ Bv Lv) as (L2 & _).
  rewrite zlen_app, L1, L2, Z.eqb_refl. reflexivity.
Qed.

(* ---------------- representations ---------------- *)
Definition expect (h : nv) : qnv :=
  mk_qnv (nv_name h) (nv_value h) (lookup_token (nv_name h)) (if is_nevh h then FLAG_NEVER_INDEX else 0).
Definition refs_in (c : ctx) (ric : Z) (refs : list (Z * (list Z * list Z))) : Prop :=
  Forall (fun r => fst r < ric /\ at_index c (fst r) (snd r)) refs.
(* bytes that a decoder holding the entries [refs] decodes to [qs] *)
Definition body_sem (base : Z) (refs : list (Z * (list Z * list Z))) (rb : list Z) (qs : list qnv) : Prop :=
  bytes rb /\ forall c s rest, ctx_ok c -> s_start s -> s_base s = base -> bytes rest -> refs_in c (s_ricnt s) refs ->
  exists s', s_start s' /\ s_id s' = s_id s /\ s_ricnt s' = s_ricnt s /\ s_base s' = s_base s /\
    rs_run c s (rb ++ rest) = rev_ qs (rs_run c s' rest).
Lemma body_nil base : body_sem base [] [] [].
Proof. split; [constructor|]. intros c s rest _ S _ _ _. exists s. rewrite rev_nil_. auto. Qed.
Lemma body_app base r1 b1 q1 r2 b2 q2 : body_sem base r1 b1 q1 -> body_sem base r2 b2 q2 -> body_sem base (r1 ++ r2) (b1 ++ b2) (q1 ++ q2).
Proof.
  intros [B1 H1] [B2 H2]. split; [apply bytes_app; auto|]. intros c s rest W S Hb Br R. apply Forall_app in R as [R1 R2].
  destruct (H1 c s (b2 ++ rest) W S Hb ltac:(apply bytes_app; auto) R1) as (s1 & S1 & I1 & C1 & E1 & X1).
  destruct (H2 c s1 rest W S1 ltac:(congruence) Br ltac:(unfold refs_in; rewrite C1; exact R2)) as (s2 & S2 & I2 & C2 & E2 & X2).
  exists s2. rewrite <- app_assoc, X1, X2, rev_app. repeat split; auto; try congruence; apply S2.
Qed.
Lemma s_next_ok c s op rest q b : s_start s -> rs_run c s (b ++ rest) = rev_ [q] (rs_run c (s_next s op) rest) ->
  exists s', s_start s' /\ s_id s' = s_id s /\ s_ricnt s' = s_ricnt s /\ s_base s' = s_base s /\
    rs_run c s (b ++ rest) = rev_ [q] (rs_run c s' rest).
Proof. intros S E. exists (s_next s op). split; [apply s_start_after; auto|]. auto. Qed.

Definition line_of (rb : list Z) (k : line_kind) : Prop := rb <> [] /\ forall rest, rfc_line (rb ++ rest) = Some (k, rest).
Lemma put_ne N fb n : 3 <= N <= 8 -> is_byte fb -> 0 <= n < 2 ^ 62 ->
  exists b t, q_put_varint fb n N = b :: t /\ (fb / 2 ^ N * 2 ^ N = fb -> fb <= b < fb + 2 ^ N).
Proof.
  intros HN Bf Hn. destruct (q_put_varint_first N fb n ltac:(lia) Bf Hn) as (t & E & _). rewrite E. eexists _, _. split; [reflexivity|].
  intros ->. assert (P : 0 < 2 ^ N) by (apply pow2_pos; lia). lia.
Qed.
(* the kind of a line that starts with an integer *)
Lemma rep_static_indexed i n v t base : stable_get i = Some (n, v, t) ->
  write_static_indexed i = Ok (q_put_varint 192 i 6) /\
  body_sem base [] (q_put_varint 192 i 6) [mk_qnv n v (lookup_token n) 0] /\ line_of (q_put_varint 192 i 6) LIndexed.
Proof.
  intros G. pose proof (stable_get_range _ _ G) as R. destruct (stable_get_token _ _ _ _ G) as [-> _].
  assert (B192 : is_byte 192) by (unfold is_byte; lia).
  destruct (put_zlen 6 192 i ltac:(lia) B192 ltac:(lia)) as (_ & Bp & Rf).
  split; [apply write_number_ok; auto; lia|]. split; [split; [auto|]|].
  - intros c s rest W S Hb Br _. apply (s_next_ok c s RoIndexed); auto.
    apply (rs_indexed c W s 192 i 6 RoIndexed false i); auto; try lia.
    + unfold rop; auto 10.
    + reflexivity.
    + unfold emitted. rewrite G. reflexivity.
  - destruct (put_ne 6 192 i ltac:(lia) B192 ltac:(lia)) as (b & tl & E & Rb). specialize (Rb eq_refl).
    split; [rewrite E; discriminate|]. intros rest. specialize (Rf rest). rewrite E in *. cbn [app] in *. unfold rfc_line, after_int. rewrite Rf.
    destruct (Z.leb_spec 128 b); [reflexivity|lia].
Qed.
Lemma rep_dynamic_indexed i n v base : 0 <= i < 2 ^ 62 -> 0 <= base < 2 ^ 62 ->
  exists rb, write_dynamic_indexed i base = Ok rb /\
  body_sem base [(i, (n, v))] rb [mk_qnv n v (lookup_token n) 0] /\ line_of rb LIndexed.
Proof.
  intros Hi Hb. unfold write_dynamic_indexed.
  assert (EM : forall c, ctx_ok c -> at_index c i (n, v) -> emitted c true i = Ok (mk_qnv n v (lookup_token n) 0)).
  { intros c W A. destruct (at_get c i _ (proj1 W) A) as (e & G & K & _ & T & _). unfold emitted. rewrite G.
    unfold kv in K. injection K as <- <-. rewrite T. reflexivity. }
  destruct (Z.ltb_spec i base).
  - assert (B : is_byte 128) by (unfold is_byte; lia). destruct (put_zlen 6 128 (base - i - 1) ltac:(lia) B ltac:(lia)) as (_ & Bp & Rf).
    exists (q_put_varint 128 (base - i - 1) 6). split; [apply write_number_ok; auto; lia|]. split; [split; [auto|]|].
    + intros c s rest W S Hs Br R. inversion R as [|x l [R1 R2] _]; subst. cbn [fst snd] in R1, R2. apply (s_next_ok c s RoIndexed); auto.
      apply (rs_indexed c W s 128 _ 6 RoIndexed true i); auto; try lia.
      * unfold rop; auto 10.
      * cbn [sec_rel]. lia.
      * pose proof (at_range c i _ R2). unfold sec_has; cbv iota; lia.
    + destruct (put_ne 6 128 (base - i - 1) ltac:(lia) B ltac:(lia)) as (b & tl & E & Rb). specialize (Rb eq_refl).
      split; [rewrite E; discriminate|]. intros rest. specialize (Rf rest). rewrite E in *. cbn [app] in *. unfold rfc_line, after_int. rewrite Rf.
      destruct (Z.leb_spec 128 b); [reflexivity|lia].
  - assert (B : is_byte 16) by (unfold is_byte; lia). destruct (put_zlen 4 16 (i - base) ltac:(lia) B ltac:(lia)) as (_ & Bp & Rf).
    exists (q_put_varint 16 (i - base) 4). split; [apply write_number_ok; auto; lia|]. split; [split; [auto|]|].
    + intros c s rest W S Hs Br R. inversion R as [|x l [R1 R2] _]; subst. cbn [fst snd] in R1, R2. apply (s_next_ok c s RoIndexedPb); auto.
      apply (rs_indexed c W s 16 _ 4 RoIndexedPb true i); auto; try lia.
      * unfold rop; auto 10.
      * cbn [sec_rel]. split; [auto|lia].
      * pose proof (at_range c i _ R2). unfold sec_has; cbv iota; lia.
    + destruct (put_ne 4 16 (i - base) ltac:(lia) B ltac:(lia)) as (b & tl & E & Rb). specialize (Rb eq_refl).
      split; [rewrite E; discriminate|]. intros rest. specialize (Rf rest). rewrite E in *. cbn [app] in *. unfold rfc_line, after_int. rewrite Rf.
      destruct (Z.leb_spec 128 b); [lia|]. destruct (Z.leb_spec 64 b); [lia|]. destruct (Z.leb_spec 32 b); [lia|]. destruct (Z.leb_spec 16 b); [reflexivity|lia].
Qed.
Lemma lor_flag fb f (x : bool) : Z.lor fb (if x then f else 0) = if x then Z.lor fb f else fb.
Proof. destruct x; [auto|apply Z.lor_0_r]. Qed.
(* a name reference followed by a value *)
Lemma name_line fb n N v k : 3 <= N <= 4 -> 0 <= n < 2 ^ 62 -> bytes v -> zlen v < 2 ^ 62 ->
  (N = 4 /\ (fb = 64 /\ k = false \/ fb = 80 /\ k = false \/ fb = 96 /\ k = true \/ fb = 112 /\ k = true) \/
   N = 3 /\ (fb = 0 /\ k = false \/ fb = 8 /\ k = true)) ->
  bytes (q_put_varint fb n N ++ put_str 0 v 7) /\ line_of (q_put_varint fb n N ++ put_str 0 v 7) (LNameRef k).
Proof.
  intros HN Hn Bv Lv Hc. assert (B : is_byte fb) by (unfold is_byte; lia).
  destruct (put_zlen N fb n ltac:(lia) B Hn) as (_ & Bp & Rf). destruct (value_len v Bv Lv) as (_ & Bs & Rs).
  split; [apply bytes_app; auto|].
  destruct (put_ne N fb n ltac:(lia) B Hn) as (b & tl & E & Rb).
  assert (Rb' : fb <= b < fb + 2 ^ N).
  { apply Rb. destruct Hc as [(-> & [Hc|[Hc|[Hc|Hc]]])|(-> & [Hc|Hc])]; destruct Hc as (-> & _); reflexivity. }
  split; [rewrite E; discriminate|]. intros rest. rewrite <- app_assoc. specialize (Rf (put_str 0 v 7 ++ rest)). rewrite E in *. cbn [app] in *.
  unfold rfc_line, after_int.
  destruct Hc as [(-> & Hc)|(-> & Hc)].
  - change (2 ^ 4) with 16 in Rb'. destruct (Z.leb_spec 128 b); [lia|]. destruct (Z.leb_spec 64 b); [|lia].
    rewrite Rf, Rs. replace (96 <=? b) with k by (symmetry; destruct k; [apply Z.leb_le|apply Z.leb_gt]; intuition (discriminate || lia)). reflexivity.
  - change (2 ^ 3) with 8 in Rb'. destruct (Z.leb_spec 128 b); [lia|]. destruct (Z.leb_spec 64 b); [lia|].
    destruct (Z.leb_spec 32 b); [lia|]. destruct (Z.leb_spec 16 b); [lia|].
    rewrite Rf, Rs. replace (8 <=? b) with k by (symmetry; destruct k; [apply Z.leb_le|apply Z.leb_gt]; intuition (discriminate || lia)). reflexivity.
Qed.
Lemma rep_static_name i h v0 t base : stable_get i = Some (nv_name h, v0, t) -> field_ok h ->
  exists rb, write_static_indexed_name i h = Ok rb /\ body_sem base [] rb [expect h] /\ line_of rb (LNameRef (is_nevh h)).
Proof.
  intros G F. pose proof (stable_get_range _ _ G) as R. destruct (stable_get_token _ _ _ _ G) as [-> _].
  destruct (field_bounds h F) as (_ & Bv & _ & Lm & _ & Lv).
  unfold write_static_indexed_name. rewrite lor_flag. change (Z.lor 80 32) with 112.
  set (fb := if is_nevh h then 112 else 80).
  assert (B : is_byte fb) by (subst fb; unfold is_byte; destruct (is_nevh h); lia).
  destruct (name_line fb i 4 (nv_value h) (is_nevh h) ltac:(lia) ltac:(lia) Bv Lv) as [Bb Ln].
  { subst fb. left. split; [auto|]. destruct (is_nevh h); auto 10. }
  eexists. split; [apply write_indexed_name_ok; auto; lia|]. split; [|exact Ln]. split; [exact Bb|].
  intros c s rest W S Hs Br _. apply (s_next_ok c s RoIndexedName); auto. rewrite <- app_assoc.
  apply (rs_indexed_name c W s fb i 4 RoIndexedName (is_nevh h) false i); auto; try lia.
  - subst fb. unfold rop. destruct (is_nevh h); auto 20.
  - reflexivity.
  - unfold emitted_name. rewrite G. reflexivity.
Qed.
Lemma rep_dynamic_name i h v0 base : 0 <= i < 2 ^ 62 -> 0 <= base < 2 ^ 62 -> field_ok h ->
  exists rb, write_dynamic_indexed_name i base h = Ok rb /\
  body_sem base [(i, (nv_name h, v0))] rb [expect h] /\ line_of rb (LNameRef (is_nevh h)).
Proof.
  intros Hi Hb F. destruct (field_bounds h F) as (_ & Bv & _ & Lm & _ & Lv). unfold write_dynamic_indexed_name.
  assert (EM : forall c, ctx_ok c -> at_index c i (nv_name h, v0) -> emitted_name c (is_nevh h) true i (nv_value h) = Ok (expect h)).
  { intros c W A. destruct (at_get c i _ (proj1 W) A) as (e & G & K & _ & T & _). unfold emitted_name. rewrite G.
    unfold kv in K. injection K as K1 K2. rewrite T, K1. reflexivity. }
  rewrite lor_flag. change (Z.lor 64 32) with 96.
  destruct (Z.ltb_spec i base).
  - set (fb := if is_nevh h then 96 else 64).
    assert (B : is_byte fb) by (subst fb; unfold is_byte; destruct (is_nevh h); lia).
    destruct (name_line fb (base - i - 1) 4 (nv_value h) (is_nevh h) ltac:(lia) ltac:(lia) Bv Lv) as [Bb Ln].
    { subst fb. left. split; [auto|]. destruct (is_nevh h); auto 10. }
    eexists. split; [apply write_indexed_name_ok; auto; lia|]. split; [|exact Ln]. split; [exact Bb|].
    intros c s rest W S Hs Br R. inversion R as [|x l [R1 R2] _]; subst. cbn [fst snd] in R1, R2.
    apply (s_next_ok c s RoIndexedName); auto. rewrite <- app_assoc.
    apply (rs_indexed_name c W s fb _ 4 RoIndexedName (is_nevh h) true i); auto; try lia.
    + subst fb. unfold rop. destruct (is_nevh h); auto 20.
    + cbn [sec_rel]. lia.
    + pose proof (at_range c i _ R2). unfold sec_has; cbv iota; lia.
  - set (fb := if is_nevh h then 8 else 0).
    assert (B : is_byte fb) by (subst fb; unfold is_byte; destruct (is_nevh h); lia).
    destruct (name_line fb (i - base) 3 (nv_value h) (is_nevh h) ltac:(lia) ltac:(lia) Bv Lv) as [Bb Ln].
    { subst fb. right. split; [auto|]. destruct (is_nevh h); auto 10. }
    eexists. split; [apply write_indexed_name_ok; auto; lia|]. split; [|exact Ln]. split; [exact Bb|].
    intros c s rest W S Hs Br R. inversion R as [|x l [R1 R2] _]; subst. cbn [fst snd] in R1, R2.
    apply (s_next_ok c s RoIndexedNamePb); auto. rewrite <- app_assoc.
    apply (rs_indexed_name c W s fb _ 3 RoIndexedNamePb (is_nevh h) true i); auto; try lia.
    + subst fb. unfold rop. destruct (is_nevh h); auto 20.
    + cbn [sec_rel]. split; [auto|lia].
    + pose proof (at_range c i _ R2). unfold sec_has; cbv iota; lia.
Qed.
Lemma rep_literal h base : field_ok h ->
  exists rb, write_literal h = Ok rb /\ body_sem base [] rb [expect h] /\ line_of rb (LLiteral (is_nevh h)).
Proof.
  intros F. destruct (field_bounds h F) as (Bn & Bv & Lm1 & Lm & Ln & Lv). unfold write_literal.
  rewrite lor_flag. change (Z.lor 32 16) with 48. set (fb := if is_nevh h then 48 else 32).
  assert (HF : fb_ok fb 3 = true) by (subst fb; destruct (is_nevh h); reflexivity).
  destruct (put_str_len fb (nv_name h) 3 ltac:(lia) HF Bn Ln) as (_ & B1 & R1).
  destruct (value_len _ Bv Lv) as (_ & B2 & R2).
  eexists. split; [apply write_literal_gen_ok; auto; lia|]. split; [split; [apply bytes_app; auto|]|].
  - intros c s rest W S Hs Br _. apply (s_next_ok c s RoLiteral); auto. rewrite <- app_assoc. apply rs_literal; auto.
  - destruct (put_str_read fb (nv_name h) 3 [] ltac:(lia) HF Bn Ln ltac:(constructor)) as (b & tl & E & _ & Rb & _).
    rewrite app_nil_r in E. change (2 ^ (3 + 1)) with 16 in Rb.
    split; [rewrite E; discriminate|]. intros rest. rewrite <- app_assoc. specialize (R1 (put_str 0 (nv_value h) 7 ++ rest)). rewrite E in *. cbn [app] in *.
    unfold rfc_line. rewrite R1. destruct (Z.leb_spec 128 b); [subst fb; destruct (is_nevh h); lia|].
    destruct (Z.leb_spec 64 b); [subst fb; destruct (is_nevh h); lia|]. destruct (Z.leb_spec 32 b); [|subst fb; destruct (is_nevh h); lia].
    rewrite R2. replace (48 <=? b) with (is_nevh h) by (subst fb; destruct (is_nevh h); lia). reflexivity.
Qed.

(* ---------------- sensitive fields ---------------- *)
Lemma token_auth n : (lookup_token n =? T_AUTHORIZATION) = beqb n s_authorization.
Proof.
  assert (A : lookup_token s_authorization = T_AUTHORIZATION) by (vm_compute; reflexivity).
  destruct (beqb n s_authorization) eqn:E.
  - apply beqb_spec in E. subst. rewrite A. reflexivity.
  - apply Z.eqb_neq. intros X. assert (n = s_authorization).
    { apply lookup_token_inj; [rewrite X; discriminate|congruence]. } subst. rewrite beqb_refl in E. discriminate.
Qed.
Lemma token_cookie n : (lookup_token n =? T_COOKIE) = beqb n s_cookie.
Proof.
  assert (A : lookup_token s_cookie = T_COOKIE) by (vm_compute; reflexivity).
  destruct (beqb n s_cookie) eqn:E.
  - apply beqb_spec in E. subst. rewrite A. reflexivity.
  - apply Z.eqb_neq. intros X. assert (n = s_cookie).
    { apply lookup_token_inj; [rewrite X; discriminate|congruence]. } subst. rewrite beqb_refl in E. discriminate.
Qed.
Lemma fits_not_never c h : is_never (fits_store c h) = false.
Proof. unfold fits_store. destruct (_ >? _); reflexivity. Qed.
Lemma mode_sensitive c h : is_never (decide_mode c h (lookup_token (nv_name h))) = sensitive h.
Proof.
  unfold decide_mode, sensitive, is_nevh. destruct (has_flag (nv_flags h) FLAG_NEVER_INDEX); [reflexivity|].
  rewrite token_auth, token_cookie. cbn [orb]. destruct (beqb (nv_name h) s_authorization); [reflexivity|]. cbn [orb].
  destruct (beqb (nv_name h) s_cookie); cbn [andb].
  - destruct (_ <? 20); [reflexivity|apply fits_not_never].
  - repeat match goal with |- context [if ?x then _ else _] => destruct x end; try reflexivity; apply fits_not_never.
Qed.
Lemma nevh_sensitive h : is_nevh h = true -> sensitive h = true.
Proof. unfold is_nevh, sensitive. intros ->. reflexivity. Qed.

(* ---------------- encoder_qpack_map_find ---------------- *)
Lemma can_reference_ok c e : ctx_wf c -> In e (dtable c) -> exists b, can_reference c (e_abs e) = Ok b.
Proof.
  intros W H. destruct (at_in c e W H) as [A _]. destruct (at_get c _ _ W A) as (e' & G & _). unfold can_reference. rewrite G. eauto.
Qed.
Definition found (c : ctx) (h : nv) (krcnt : Z) (allow : bool) (e : entry) : Prop :=
  In e (dtable c) /\ e_name e = nv_name h /\ (allow = true \/ e_abs e + 1 <= krcnt).
Lemma map_find_spec c h hash krcnt allow name_only l : ctx_wf c -> forall pm pb,
  (forall e, In e l -> In e (dtable c)) ->
  (forall e, pm = Some e -> found c h krcnt allow e) ->
  exists m ex pb', map_find l c h (lookup_token (nv_name h)) hash krcnt allow name_only pm pb = Ok (m, ex, pb') /\
    (forall e, m = Some e -> found c h krcnt allow e /\ (ex = true -> e_value e = nv_value h)) /\
    (ex = true -> name_only = false \/ exists e, pm = Some e) /\ (m = None -> ex = false).
Proof.
  intros W. induction l as [|p l IH]; intros pm pb Hin Hpm; cbn [map_find].
  { exists pm, false, pb. split; [reflexivity|]. split; [intros e E; split; [auto|discriminate]|split; [discriminate|auto]]. }
  assert (Hl : forall e, In e l -> In e (dtable c)) by (intros; apply Hin; right; auto).
  pose proof (Hin p (or_introl eq_refl)) as Hp. destruct (at_in c p W Hp) as [_ Tp].
  destruct (negb (lookup_token (nv_name h) =? e_token p)
       || ((lookup_token (nv_name h) =? -1) && (negb (hash =? e_hash p) || negb (beqb (e_name p) (nv_name h))))) eqn:Ek; [apply IH; auto|].
  apply orb_false_elim in Ek as [Ek1 Ek2]. apply negb_false_iff, Z.eqb_eq in Ek1.
  assert (Nm : e_name p = nv_name h).
  { destruct (Z.eqb_spec (lookup_token (nv_name h)) (-1)) as [E1|E1].
    - cbn [andb] in Ek2. apply orb_false_elim in Ek2 as [_ Ek2]. apply negb_false_iff, beqb_spec in Ek2. exact Ek2.
    - symmetry. apply lookup_token_inj; [auto|congruence]. }
  destruct (can_reference_ok c p W Hp) as [b Cr]. rewrite Cr. cbn [obind].
  destruct b; cbn [negb]; [|apply IH; auto].
  destruct (allow || (e_abs p + 1 <=? krcnt)) eqn:Al.
  - assert (Fp : found c h krcnt allow p).
    { split; [auto|]. split; [auto|]. apply orb_prop in Al as [Al|Al]; [auto|right; lia]. }
    destruct pm as [x|].
    + destruct (beqb (e_value p) (nv_value h)) eqn:Ev; [|apply IH; auto].
      apply beqb_spec in Ev. exists (Some p), true, pb. split; [reflexivity|].
      split; [intros e [= <-]; auto|]. split; [right; eauto|discriminate].
    + destruct name_only.
      * exists (Some p), false, pb. split; [reflexivity|]. split; [intros e [= <-]; split; [auto|discriminate]|]. split; discriminate.
      * destruct (beqb (e_value p) (nv_value h)) eqn:Ev.
        -- apply beqb_spec in Ev. exists (Some p), true, pb. split; [reflexivity|].
           split; [intros e [= <-]; auto|]. split; [auto|discriminate].
        -- destruct (IH (Some p) pb Hl) as (m & ex & pb' & E & H1 & H2 & H3); [intros e [= <-]; auto|].
           exists m, ex, pb'. split; [auto|]. split; [auto|]. split; [intros X; auto|auto].
  - destruct pb as [x|]; apply IH; auto.
Qed.
Lemma bucket_in c hash e : In e (bucket c hash) -> In e (dtable c).
Proof. unfold bucket. intros H. apply filter_In in H. tauto. Qed.
Lemma hash_of_ok n : exists x, hash_of (lookup_token n) n = Ok x.
Proof.
  unfold hash_of. destruct (static_entry (lookup_token n)) eqn:E.
  - unfold static_entry in E. apply andb_prop in E as [E1 E2]. pose proof (lookup_token_range n) as R.
    assert (L : zlen token_stable = 99) by (vm_compute; reflexivity). rewrite L in E2.
    assert (H : 0 <= lookup_token n <= 98) by lia.
    unfold token_stable_get. destruct (Z.ltb_spec (lookup_token n) 0); [lia|].
    destruct (nth_error token_stable (Z.to_nat (lookup_token n))) as [[[a b] x]|] eqn:G; [eauto|].
    apply nth_error_None in G. unfold zlen in L. lia.
  - repeat match goal with |- context [if ?x then _ else _] => destruct x end; eauto.
Qed.
Lemma static_entry_range n : static_entry (lookup_token n) = true <-> 0 <= lookup_token n <= 98.
Proof.
  unfold static_entry. assert (L : zlen token_stable = 99) by (vm_compute; reflexivity). rewrite L.
  pose proof (lookup_token_range n). lia.
Qed.

(* ---------------- insertion instructions ---------------- *)
Definition es_to (V : dec) (eb : list Z) (V' : dec) : Prop :=
  bytes eb /\ es_inv V' /\ d_state V' = EsOpcode /\ forall rest, bytes rest -> es_run V (eb ++ rest) = es_run V' rest.
Lemma es_to_refl V : es_inv V -> d_state V = EsOpcode -> es_to V [] V.
Proof. intros I S. split; [constructor|]. auto. Qed.
Lemma es_to_trans V a V1 b V2 : es_to V a V1 -> es_to V1 b V2 -> es_to V (a ++ b) V2.
Proof.
  intros (A1 & A2 & A3 & A4) (B1 & B2 & B3 & B4). split; [apply bytes_app; auto|]. split; [auto|]. split; [auto|].
  intros rest Br. rewrite <- app_assoc, A4 by (apply bytes_app; auto). auto.
Qed.
Lemma es_inv_at V op c : ctx_ok c -> es_inv (d_at V op c).
Proof. intros H. split; [exact H|]. reflexivity. Qed.

(* what an insertion changes *)
Record grown (g : option Z) (mn : Z) (c c' : ctx) (f : list Z * list Z) : Prop := {
  gr_next : next_absidx c' = next_absidx c + 1;
  gr_hard : hard_max c' = hard_max c; gr_max : max_cap c' = max_cap c;
  gr_blk : max_blocked c' = max_blocked c; gr_bad : bad c' = bad c;
  gr_new : at_index c' (next_absidx c) f;
  gr_top : top_abs c' = Ok (next_absidx c);
  gr_tab : exists k, contents c' = f :: firstn k (contents c);
  gr_keep : forall i x, at_index c i x -> protects g mn i -> at_index c' i x }.
Lemma insert_step V c g mn n v hash eb op : es_inv V -> d_state V = EsOpcode -> sync (d_ctx V) c -> bytes n -> bytes v ->
  fld_size (n, v) <= max_cap c ->
  (forall i, next_absidx c - zlen (dtable c) <= i < next_absidx c -> protects g mn i ->
      next_absidx c - i <= zlen (fit (dtable c) (max_cap c - fld_size (n, v)))) ->
  bytes eb ->
  (forall v' rest, dec_add (d_ctx V) n v (lookup_token n) = Ok v' -> bytes rest -> es_run V (eb ++ rest) = es_run (d_at V op v') rest) ->
  exists c' V', dtable_add c n v (lookup_token n) hash = Ok c' /\ es_to V eb V' /\ sync (d_ctx V') c' /\ grown g mn c c' (n, v).
Proof.
  intros I St Sy Bn Bv Hs Hk Be Run.
  destruct (insert_sync _ _ n v hash Sy Bn Bv Hs) as (c' & v' & E1 & E2 & Sy' & Nx & Mb & Bd & Mc & Hm & An & (t & T1 & T2) & Tp & Kp).
  exists c', (d_at V op v'). split; [auto|]. split.
  { split; [auto|]. split; [apply es_inv_at; apply Sy'|]. split; [reflexivity|]. intros rest Br. apply Run; auto. }
  split; [exact Sy'|]. constructor; auto.
  - eauto.
  - intros i x A P. apply Kp; auto. apply Hk; auto. eapply at_range; eauto.
Qed.
Lemma fld_need h : table_space (zlen (nv_name h)) (zlen (nv_value h)) = fld_size (nv_name h, nv_value h).
Proof. unfold table_space, fld_size. cbn [fst snd]. lia. Qed.
