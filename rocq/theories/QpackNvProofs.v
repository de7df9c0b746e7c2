(* nghttp3_qpack_encoder_encode_nv: what one field writes and changes. *)
From Verif Require Import Base BaseLemmas Tables ConvProofs QpackIntModel QpackIntSpec QpackIntProofs
  HuffModel HuffSpec HuffProofs QpackTabModel QpackTabSpec QpackTabProofs QpackDynSpec QpackDynProofs
  Chunk QpackDecModel QpackReadProofs QpackDecProofs QpackSecProofs QpackHistModel QpackHistProofs QpackCutProofs QpackEncModel
  QpackWireProofs QpackEncSpec QpackEncProofs.

Notation fld := (list Z * list Z)%type.
Definition fmax (m : Z) (refs : list (Z * fld)) : Z := fold_left (fun m r => Z.max m (fst r + 1)) refs m.
Definition fmin (m : Z) (refs : list (Z * fld)) : Z := fold_left (fun m r => Z.min m (fst r + 1)) refs m.

(* the table and the receiver's table are the same, or nothing can be inserted *)
Definition linked (V : dec) (c : ctx) (g : option Z) : Prop := sync (d_ctx V) c \/ stuck c g.
Record nv_pre (V : dec) (g : option Z) (base : Z) (a : acc) : Prop := {
  np_inv : es_inv V; np_st : d_state V = EsOpcode; np_wf : ctx_wf (a_ctx a);
  np_link : linked V (a_ctx a) g;
  np_g : forall m, g = Some m -> inr (a_ctx a) m;
  np_mn : a_min a = u64_max \/ inr (a_ctx a) (a_min a);
  np_base : 0 <= base <= next_absidx (a_ctx a); np_big : next_absidx (a_ctx a) < 2 ^ 62 - 1 }.
Record nv_post (krcnt base : Z) (g : option Z) (allow : bool) (V V' : dec) (a a' : acc) (h : nv)
    (rb eb : list Z) (refs : list (Z * fld)) (k : line_kind) : Prop := {
  po_rb : a_rb a' = a_rb a ++ rb; po_eb : a_eb a' = a_eb a ++ eb; po_es : es_to V eb V';
  po_tab : a_ctx a' = a_ctx a /\ d_ctx V' = d_ctx V /\ eb = [] \/
           sync (d_ctx V) (a_ctx a) /\ sync (d_ctx V') (a_ctx a') /\ sensitive h = false /\
           exists mn, grown g mn (a_ctx a) (a_ctx a') (nv_name h, nv_value h) /\ mn <= a_min a;
  po_max : a_max a' = fmax (a_max a) refs; po_min : a_min a' = fmin (a_min a) refs;
  po_refs : Forall (fun r => at_index (a_ctx a') (fst r) (snd r) /\ (allow = true \/ fst r + 1 <= krcnt)) refs;
  po_body : body_sem base refs rb [expect h];
  po_line : line_of rb k; po_sens : sensitive h = true -> k <> LIndexed;
  po_kind : k = LIndexed \/ k = LNameRef (is_nevh h) \/ k = LLiteral (is_nevh h) }.
Definition nv_done krcnt base g allow V a h (r : outcome acc) : Prop :=
  exists a' V' rb eb refs k, r = Ok a' /\ nv_post krcnt base g allow V V' a a' h rb eb refs k.

Lemma linked_cap V c g : linked V c g -> dtable_size c <= max_cap c \/ stuck c g.
Proof. intros [S|S]; [left; apply S|right; auto]. Qed.
Lemma not_stuck V c g : linked V c g -> dtable_size c <= max_cap c -> sync (d_ctx V) c.
Proof. intros [S|S] H; [auto|]. destruct S. lia. Qed.

Lemma expect_plain h : is_nevh h = false -> expect h = mk_qnv (nv_name h) (nv_value h) (lookup_token (nv_name h)) 0.
Proof. intros H. unfold expect. rewrite H. reflexivity. Qed.
Lemma nonsens_never h : sensitive h = false -> is_nevh h = false.
Proof. intros H. destruct (is_nevh h) eqn:E; [|auto]. apply nevh_sensitive in E. congruence. Qed.

(* the entry just inserted is referred to *)
Lemma ref_top_done krcnt base g V V' a c' eb h mn : nv_pre V g base a -> field_ok h -> sensitive h = false ->
  sync (d_ctx V) (a_ctx a) -> es_to V eb V' -> sync (d_ctx V') c' -> mn <= a_min a ->
  grown g mn (a_ctx a) c' (nv_name h, nv_value h) ->
  nv_done krcnt base g true V a h (ref_top (a_ins a c' eb) base).
Proof.
  intros P F Sn Sy To Sy' Hmn G. unfold ref_top. unfold a_ins at 1. cbn [a_ctx]. rewrite (gr_top _ _ _ _ _ G). cbn [obind].
  pose proof (np_base _ _ _ _ P) as Hb. pose proof (np_big _ _ _ _ P) as Hg.
  destruct (rep_dynamic_indexed (next_absidx (a_ctx a)) (nv_name h) (nv_value h) base) as (rb & W & B & L); [lia|lia|].
  rewrite W. cbn [obind].
  exists (a_rep (a_ref (a_ins a c' eb) (next_absidx (a_ctx a))) rb), V', rb, eb, [(next_absidx (a_ctx a), (nv_name h, nv_value h))], LIndexed.
  split; [reflexivity|]. constructor; cbn [a_rep a_ref a_ins a_ctx a_max a_min a_rb a_eb]; auto.
  - right. split; [auto|]. split; [auto|]. split; [auto|]. exists mn. auto.
  - constructor; [|constructor]. cbn [fst snd]. split; [apply G|auto].
  - rewrite expect_plain by (apply nonsens_never; auto). exact B.
  - congruence.
Qed.

Lemma can_index_done V g base a need mc : nv_pre V g base a -> 0 < need -> (mc = u64_max \/ inr (a_ctx a) mc) ->
  exists b, can_index (a_ctx a) g need mc = Ok b /\ (b = true -> sync (d_ctx V) (a_ctx a) /\ need <= max_cap (a_ctx a) /\
    forall i, next_absidx (a_ctx a) - zlen (dtable (a_ctx a)) <= i < next_absidx (a_ctx a) -> protects g mc i ->
      next_absidx (a_ctx a) - i <= zlen (fit (dtable (a_ctx a)) (max_cap (a_ctx a) - need))).
Proof.
  intros P Hn Hm. destruct P as [I S W L G M B N].
  destruct (can_index_spec (a_ctx a) g need mc W) as (b & E & K); auto.
  { unfold u64_max. lia. } { eapply linked_cap; eauto. }
  exists b. split; [auto|]. intros Hb. destruct (K Hb) as (K1 & K2 & K3). split; [|auto]. eapply not_stuck; eauto.
Qed.

Lemma enc_exact_done krcnt base g allow V a h e : nv_pre V g base a -> field_ok h -> sensitive h = false ->
  found (a_ctx a) h krcnt allow e -> e_value e = nv_value h ->
  nv_done krcnt base g allow V a h (enc_exact a (e_abs e) base g allow).
Proof.
  intros P F Sn (In_ & Nm & Al) Vl. pose proof P as [I St W L G M B N].
  destruct (at_in _ _ W In_) as [A Tk]. destruct (at_get _ _ _ W A) as (e' & Ge & Kv & Ea & Et & Bn & Bv).
  pose proof (at_range _ _ _ A) as R. pose proof (dtable_get_inv _ _ _ W Ge) as (R2 & _).
  assert (Kn : e_name e' = nv_name h) by (unfold kv in Kv; inversion Kv; congruence).
  assert (Kvl : e_value e' = nv_value h) by (unfold kv in Kv; inversion Kv; congruence).
  assert (Z0 : 0 <= e_abs e). { destruct A. lia. }
  unfold enc_exact.
  assert (Q : exists dup, (if allow then
               obind (check_draining (a_ctx a) (e_abs e)) (fun dr : bool =>
               if dr then
                 match dtable_get (a_ctx a) (e_abs e) with
                 | None => Abort
                 | Some e => can_index (a_ctx a) g (ent_space e) (a_min a)
                 end
               else Ok false)
             else Ok false) = Ok dup /\ (dup = true -> allow = true /\ sync (d_ctx V) (a_ctx a) /\ ent_space e' <= max_cap (a_ctx a) /\
    forall i, next_absidx (a_ctx a) - zlen (dtable (a_ctx a)) <= i < next_absidx (a_ctx a) -> protects g (a_min a) i ->
      next_absidx (a_ctx a) - i <= zlen (fit (dtable (a_ctx a)) (max_cap (a_ctx a) - ent_space e')))).
  { destruct allow; [|exists false; split; [auto|discriminate]].
    unfold check_draining. rewrite Ge. cbn [obind]. destruct (_ >? _); [|exists false; split; [auto|discriminate]].
    destruct (can_index_done V g base a (ent_space e') (a_min a) P) as (b & E & K); auto.
    { pose proof (ent_space_pos e'). lia. }
    exists b. split; [auto|]. intros Hb. split; [auto|]. auto. }
  destruct Q as (dup & Q & K). rewrite Q. cbn [obind]. destruct dup.
  - destruct (K eq_refl) as (-> & Sy & Hs & Hk). clear K Q.
    unfold write_duplicate_insert. rewrite write_number_ok; [|lia|unfold is_byte; lia|lia]. cbn [obind].
    unfold enc_duplicate_add. rewrite Ge.
    destruct (insert_step V (a_ctx a) g (a_min a) (e_name e') (e_value e') (e_hash e')
      (q_put_varint 0 (next_absidx (a_ctx a) - e_abs e - 1) 5) OpDuplicate) as (c' & V' & E1 & To & Sy' & Gr); auto.
    { rewrite ent_space_kv in Hs. exact Hs. }
    { intros i Hi Pr. specialize (Hk i Hi Pr). rewrite ent_space_kv in Hk. exact Hk. }
    { apply put_zlen; [lia|unfold is_byte; lia|lia]. }
    { intros v' rest Ev Br. pose proof (sy_next _ _ Sy) as Sn2. rewrite <- Sn2.
      assert (A' : at_index (d_ctx V) (e_abs e) (kv e)).
      { eapply at_contents; [| |exact A]; [symmetry; apply Sy|symmetry; apply Sy]. }
      destruct (at_get (d_ctx V) _ _ (proj1 (sy_v _ _ Sy)) A') as (ev & Gv & Kv' & _ & Tv & _).
      assert (e_name ev = e_name e' /\ e_value ev = e_value e') as [X1 X2].
      { unfold kv in *. inversion Kv'. inversion Kv. split; congruence. }
      eapply es_dup; eauto; [lia|]. rewrite X1, X2, Tv, X1. exact Ev. }
    rewrite Et. rewrite E1. cbn [obind]. rewrite Kn, Kvl in Gr.
    eapply ref_top_done; eauto. lia.
  - destruct (rep_dynamic_indexed (e_abs e) (nv_name h) (nv_value h) base) as (rb & Wr & B1 & L1); [lia|lia|].
    rewrite Wr. cbn [obind].
    exists (a_rep (a_ref a (e_abs e)) rb), V, rb, [], [(e_abs e, (nv_name h, nv_value h))], LIndexed.
    split; [reflexivity|]. constructor; cbn [a_rep a_ref a_ctx a_max a_min a_rb a_eb]; auto.
    + rewrite app_nil_r. auto.
    + apply es_to_refl; auto.
    + constructor; [|constructor]. cbn [fst snd]. split; [|auto]. unfold kv in A. rewrite Nm, Vl in A. exact A.
    + rewrite expect_plain by (apply nonsens_never; auto). exact B1.
    + congruence.
Qed.

(* what the optional insertion does *)
Definition inserted (V : dec) (g : option Z) (mn : Z) (a : acc) (h : nv) (ins : bool) (eb : list Z) (c' : ctx) (V' : dec) : Prop :=
  if ins then sync (d_ctx V) (a_ctx a) /\ es_to V eb V' /\ sync (d_ctx V') c' /\
              grown g mn (a_ctx a) c' (nv_name h, nv_value h)
  else eb = [] /\ c' = a_ctx a /\ V' = V.
Lemma inserted_tab V g mn a h ins eb c' V' : inserted V g mn a h ins eb c' V' -> mn <= a_min a -> es_inv V -> d_state V = EsOpcode ->
  (ins = true -> sensitive h = false) ->
  es_to V eb V' /\
  (c' = a_ctx a /\ d_ctx V' = d_ctx V /\ eb = [] \/
   sync (d_ctx V) (a_ctx a) /\ sync (d_ctx V') c' /\ sensitive h = false /\
   exists mn, grown g mn (a_ctx a) c' (nv_name h, nv_value h) /\ mn <= a_min a).
Proof.
  unfold inserted. destruct ins; intros H Hm I St Sn.
  - destruct H as (A & B & C & D). split; [auto|]. right. split; [auto|]. split; [auto|]. split; [auto|]. eauto.
  - destruct H as (-> & -> & ->). split; [apply es_to_refl; auto|]. left. auto.
Qed.

Lemma enc_static_name_done krcnt base g allow just V a h si v0 t hash : nv_pre V g base a -> field_ok h ->
  (just = true -> sensitive h = false) -> stable_get si = Some (nv_name h, v0, t) ->
  nv_done krcnt base g allow V a h (enc_static_name a h si hash base g allow just).
Proof.
  intros P F Sn Sg. pose proof P as [I St W L G M B N]. unfold enc_static_name.
  pose proof (field_bounds h F) as (Bn & Bv & Ln & Lv & Ln2 & Lv2).
  pose proof (stable_get_range _ _ Sg) as Rs. pose proof (stable_get_token _ _ _ _ Sg) as [Tk _].
  rewrite fld_need. pose proof (fld_size_pos (nv_name h, nv_value h)) as Fp.
  assert (Q : exists ins, (if just then can_index (a_ctx a) g (fld_size (nv_name h, nv_value h)) (a_min a) else Ok false) = Ok ins /\
    (ins = true -> just = true /\ sync (d_ctx V) (a_ctx a) /\ fld_size (nv_name h, nv_value h) <= max_cap (a_ctx a) /\
    forall i, next_absidx (a_ctx a) - zlen (dtable (a_ctx a)) <= i < next_absidx (a_ctx a) -> protects g (a_min a) i ->
      next_absidx (a_ctx a) - i <= zlen (fit (dtable (a_ctx a)) (max_cap (a_ctx a) - fld_size (nv_name h, nv_value h))))).
  { destruct just; [|exists false; split; [auto|discriminate]].
    destruct (can_index_done V g base a (fld_size (nv_name h, nv_value h)) (a_min a) P) as (b & E & K); auto. { lia. }
    exists b. auto. }
  destruct Q as (ins & Q & K). rewrite Q. cbn [obind]. clear Q.
  assert (Q : exists eb c' V', (if ins then
              obind (write_static_insert si h) (fun eb =>
              obind (enc_static_add (a_ctx a) si h hash) (fun c' => Ok (a_ins a c' eb)))
            else Ok a) = Ok (if ins then a_ins a c' eb else a) /\ inserted V g (a_min a) a h ins eb c' V').
  { destruct ins; [|exists [], (a_ctx a), V; split; [auto|repeat split]].
    destruct (K eq_refl) as (_ & Sy & Hs & Hk). unfold write_static_insert.
    rewrite write_indexed_name_ok; [|lia|unfold is_byte; lia|lia|auto]. cbn [obind]. unfold enc_static_add. rewrite Sg.
    destruct (insert_step V (a_ctx a) g (a_min a) (nv_name h) (nv_value h) hash
      (q_put_varint 192 si 6 ++ put_str 0 (nv_value h) 7) OpInsertIndexed) as (c' & V' & E1 & To & Sy' & Gr); auto.
    { apply bytes_app. split; [apply put_zlen; [lia|unfold is_byte; lia|lia]|apply value_len; auto]. }
    { intros v' rest Ev Br. rewrite <- app_assoc. eapply es_insert_sta; eauto. rewrite Tk. exact Ev. }
    exists (q_put_varint 192 si 6 ++ put_str 0 (nv_value h) 7), c', V'. rewrite Tk, E1. cbn [obind]. split; [reflexivity|].
    unfold inserted. auto. }
  destruct Q as (eb & c' & V' & Q & X). rewrite Q. cbn [obind]. clear Q.
  assert (Sn' : ins = true -> sensitive h = false). { intros E. apply Sn. apply K; auto. }
  destruct (inserted_tab _ _ _ _ _ _ _ _ _ X (Z.le_refl _) I St Sn') as (To & Tab).
  destruct (ins && allow) eqn:D.
  - apply andb_true_iff in D as [-> ->]. destruct X as (X1 & X2 & X3 & X4). eapply ref_top_done; eauto. lia.
  - destruct (rep_static_name si h v0 t base Sg F) as (rb & Wr & Bs & Li). rewrite Wr. cbn [obind].
    eexists (a_rep (if ins then a_ins a c' eb else a) rb), V', rb, eb, [], (LNameRef (is_nevh h)). split; [reflexivity|].
    assert (Ac : a_ctx (if ins then a_ins a c' eb else a) = c'). { destruct ins; [reflexivity|]. destruct X as (_ & X & _). auto. }
    assert (Ae : a_eb (if ins then a_ins a c' eb else a) = a_eb a ++ eb).
    { destruct ins; [reflexivity|]. destruct X as (X & _). rewrite X, app_nil_r. auto. }
    constructor; cbn [a_rep a_ctx a_max a_min a_rb a_eb]; rewrite ?Ac; auto; try (destruct ins; reflexivity).
    congruence.
Qed.

Lemma enc_literal_done krcnt base g allow just V a h hash : nv_pre V g base a -> field_ok h ->
  (just = true -> sensitive h = false) ->
  nv_done krcnt base g allow V a h (enc_literal a h (lookup_token (nv_name h)) hash base g allow just).
Proof.
  intros P F Sn. pose proof P as [I St W L G M B N]. unfold enc_literal.
  pose proof (field_bounds h F) as (Bn & Bv & Ln & Lv & Ln2 & Lv2).
  rewrite fld_need. pose proof (fld_size_pos (nv_name h, nv_value h)) as Fp.
  assert (Q : exists ins, (if just then can_index (a_ctx a) g (fld_size (nv_name h, nv_value h)) (a_min a) else Ok false) = Ok ins /\
    (ins = true -> just = true /\ sync (d_ctx V) (a_ctx a) /\ fld_size (nv_name h, nv_value h) <= max_cap (a_ctx a) /\
    forall i, next_absidx (a_ctx a) - zlen (dtable (a_ctx a)) <= i < next_absidx (a_ctx a) -> protects g (a_min a) i ->
      next_absidx (a_ctx a) - i <= zlen (fit (dtable (a_ctx a)) (max_cap (a_ctx a) - fld_size (nv_name h, nv_value h))))).
  { destruct just; [|exists false; split; [auto|discriminate]].
    destruct (can_index_done V g base a (fld_size (nv_name h, nv_value h)) (a_min a) P) as (b & E & K); auto. { lia. }
    exists b. auto. }
  destruct Q as (ins & Q & K). rewrite Q. cbn [obind]. clear Q.
  assert (Q : exists eb c' V', (if ins then
              obind (enc_literal_add (a_ctx a) h (lookup_token (nv_name h)) hash) (fun c' =>
              obind (write_literal_insert h) (fun eb => Ok (a_ins a c' eb)))
            else Ok a) = Ok (if ins then a_ins a c' eb else a) /\ inserted V g (a_min a) a h ins eb c' V').
  { destruct ins; [|exists [], (a_ctx a), V; split; [auto|repeat split]].
    destruct (K eq_refl) as (_ & Sy & Hs & Hk). unfold write_literal_insert.
    rewrite write_literal_gen_ok; [|lia|reflexivity|auto]. unfold enc_literal_add.
    destruct (insert_step V (a_ctx a) g (a_min a) (nv_name h) (nv_value h) hash
      (put_str 64 (nv_name h) 5 ++ put_str 0 (nv_value h) 7) OpInsert) as (c' & V' & E1 & To & Sy' & Gr); auto.
    { apply bytes_app. split; [apply put_str_len; auto; lia|apply value_len; auto]. }
    { intros v' rest Ev Br. rewrite <- app_assoc. eapply es_insert_lit; eauto. }
    exists (put_str 64 (nv_name h) 5 ++ put_str 0 (nv_value h) 7), c', V'. rewrite E1. cbn [obind]. split; [reflexivity|].
    unfold inserted. auto. }
  destruct Q as (eb & c' & V' & Q & X). rewrite Q. cbn [obind]. clear Q.
  assert (Sn' : ins = true -> sensitive h = false). { intros E. apply Sn. apply K; auto. }
  destruct (inserted_tab _ _ _ _ _ _ _ _ _ X (Z.le_refl _) I St Sn') as (To & Tab).
  destruct (ins && allow) eqn:D.
  - apply andb_true_iff in D as [-> ->]. destruct X as (X1 & X2 & X3 & X4). eapply ref_top_done; eauto. lia.
  - destruct (rep_literal h base F) as (rb & Wr & Bs & Li). rewrite Wr. cbn [obind].
    eexists (a_rep (if ins then a_ins a c' eb else a) rb), V', rb, eb, [], (LLiteral (is_nevh h)). split; [reflexivity|].
    assert (Ac : a_ctx (if ins then a_ins a c' eb else a) = c'). { destruct ins; [reflexivity|]. destruct X as (_ & X & _). auto. }
    assert (Ae : a_eb (if ins then a_ins a c' eb else a) = a_eb a ++ eb).
    { destruct ins; [reflexivity|]. destruct X as (X & _). rewrite X, app_nil_r. auto. }
    constructor; cbn [a_rep a_ctx a_max a_min a_rb a_eb]; rewrite ?Ac; auto; try (destruct ins; reflexivity).
    congruence.
Qed.

Lemma enc_dynamic_name_done krcnt base g allow just V a h e hash : nv_pre V g base a -> field_ok h ->
  (just = true -> sensitive h = false) -> found (a_ctx a) h krcnt allow e ->
  nv_done krcnt base g allow V a h (enc_dynamic_name a h (e_abs e) hash base g allow just).
Proof.
  intros P F Sn (In_ & Nm & Al). pose proof P as [I St W L G M B N].
  destruct (at_in _ _ W In_) as [A Tk]. destruct (at_get _ _ _ W A) as (e' & Ge & Kv & Ea & Et & _).
  pose proof (at_range _ _ _ A) as R.
  assert (Kn : e_name e' = nv_name h) by (unfold kv in Kv; inversion Kv; congruence).
  assert (Z0 : 0 <= e_abs e). { destruct A. lia. }
  unfold enc_dynamic_name. set (di := e_abs e) in *.
  pose proof (field_bounds h F) as (Bn & Bv & Ln & Lv & Ln2 & Lv2).
  rewrite fld_need. pose proof (fld_size_pos (nv_name h, nv_value h)) as Fp.
  set (mc := if allow then a_min a else Z.min (di + 1) (a_min a)).
  assert (Mc : (mc = u64_max \/ inr (a_ctx a) mc) /\ mc <= a_min a /\ (allow = false -> protects g mc di)).
  { subst mc. destruct allow; [split; [auto|split; [lia|discriminate]]|].
    assert (X : inr (a_ctx a) (di + 1)) by (unfold inr; lia). split.
    - right. destruct (Z.min_spec (di + 1) (a_min a)) as [[_ ->]|[Hc ->]]; [auto|].
      destruct M as [M|M]; [|auto]. unfold u64_max in M. lia.
    - split; [lia|]. intros _. right. lia. }
  destruct Mc as (Mc1 & Mc2 & Mc3).
  assert (Q : exists ins, (if just then can_index (a_ctx a) g (fld_size (nv_name h, nv_value h)) mc else Ok false) = Ok ins /\
    (ins = true -> just = true /\ sync (d_ctx V) (a_ctx a) /\ fld_size (nv_name h, nv_value h) <= max_cap (a_ctx a) /\
    forall i, next_absidx (a_ctx a) - zlen (dtable (a_ctx a)) <= i < next_absidx (a_ctx a) -> protects g mc i ->
      next_absidx (a_ctx a) - i <= zlen (fit (dtable (a_ctx a)) (max_cap (a_ctx a) - fld_size (nv_name h, nv_value h))))).
  { destruct just; [|exists false; split; [auto|discriminate]].
    destruct (can_index_done V g base a (fld_size (nv_name h, nv_value h)) mc P) as (b & E & K); auto. { lia. }
    exists b. auto. }
  destruct Q as (ins & Q & K). rewrite Q. cbn [obind]. clear Q.
  set (mk := fun c' eb => mk_acc c' (a_max a) (if allow then a_min a else Z.min (a_min a) (di + 1)) (a_rb a) (a_eb a ++ eb)).
  assert (Q : exists eb c' V', (if ins then
              obind (write_dynamic_insert (a_ctx a) di h) (fun eb =>
              obind (enc_dynamic_add (a_ctx a) di h hash) (fun c' => Ok (mk_acc c' (a_max a) (if allow then a_min a else Z.min (a_min a) (di + 1))
                         (a_rb a) (a_eb a ++ eb))))
            else Ok a) = Ok (if ins then mk c' eb else a) /\ inserted V g mc a h ins eb c' V').
  { destruct ins; [|exists [], (a_ctx a), V; split; [auto|repeat split]].
    destruct (K eq_refl) as (_ & Sy & Hs & Hk). unfold write_dynamic_insert.
    rewrite write_indexed_name_ok; [|lia|unfold is_byte; lia|lia|auto]. cbn [obind]. unfold enc_dynamic_add. rewrite Ge.
    destruct (insert_step V (a_ctx a) g mc (nv_name h) (nv_value h) hash
      (q_put_varint 128 (next_absidx (a_ctx a) - di - 1) 6 ++ put_str 0 (nv_value h) 7) OpInsertIndexed) as (c' & V' & E1 & To & Sy' & Gr); auto.
    { apply bytes_app. split; [apply put_zlen; [lia|unfold is_byte; lia|lia]|apply value_len; auto]. }
    { intros v' rest Ev Br. rewrite <- app_assoc. pose proof (sy_next _ _ Sy) as Sn2. rewrite <- Sn2.
      assert (A' : at_index (d_ctx V) di (kv e)).
      { eapply at_contents; [| |exact A]; [symmetry; apply Sy|symmetry; apply Sy]. }
      destruct (at_get (d_ctx V) _ _ (proj1 (sy_v _ _ Sy)) A') as (ev & Gv & Kv' & _ & Tv & _).
      assert (X1 : e_name ev = nv_name h). { unfold kv in *. inversion Kv'. inversion Kv. congruence. }
      eapply es_insert_dyn; eauto; [lia|]. rewrite Tv, X1. exact Ev. }
    exists (q_put_varint 128 (next_absidx (a_ctx a) - di - 1) 6 ++ put_str 0 (nv_value h) 7), c', V'. rewrite Et, Kn, E1. cbn [obind].
    split; [reflexivity|]. unfold inserted. auto. }
  destruct Q as (eb & c' & V' & Q & X). rewrite Q. cbn [obind]. clear Q.
  assert (Sn' : ins = true -> sensitive h = false). { intros E. apply Sn. apply K; auto. }
  destruct (inserted_tab _ _ _ _ _ _ _ _ _ X Mc2 I St Sn') as (To & Tab).
  destruct (ins && allow) eqn:D.
  - apply andb_true_iff in D as [-> ->]. destruct X as (X1 & X2 & X3 & X4).
    change (mk c' eb) with (a_ins a c' eb). eapply ref_top_done; eauto.
  - destruct (rep_dynamic_name di h (e_value e) base) as (rb & Wr & Bs & Li); [lia|lia|auto|]. rewrite Wr. cbn [obind].
    eexists (a_rep (a_ref (if ins then mk c' eb else a) di) rb), V', rb, eb, [(di, (nv_name h, e_value e))], (LNameRef (is_nevh h)).
    split; [reflexivity|].
    assert (Ac : a_ctx (if ins then mk c' eb else a) = c'). { destruct ins; [reflexivity|]. destruct X as (_ & X & _). auto. }
    assert (Ae : a_eb (if ins then mk c' eb else a) = a_eb a ++ eb).
    { destruct ins; [reflexivity|]. destruct X as (X & _). rewrite X, app_nil_r. auto. }
    constructor; cbn [a_rep a_ref a_ctx a_max a_min a_rb a_eb]; rewrite ?Ac; auto; try (destruct ins; reflexivity).
    + unfold fmin. cbn [fold_left fst]. destruct ins; [|reflexivity]. unfold mk. cbn [a_min].
      cbn [andb] in D. subst allow. lia.
    + constructor; [|constructor]. cbn [fst snd]. split; [|auto]. destruct ins.
      * cbn [andb] in D. destruct X as (_ & _ & _ & X4). apply (gr_keep _ _ _ _ _ X4); [|auto]. unfold kv in A. rewrite Nm in A. exact A.
      * destruct X as (_ & -> & _). unfold kv in A. rewrite Nm in A. exact A.
    + congruence.
Qed.

Lemma encode_nv_done krcnt base g allow nstreams V a h : nv_pre V g base a -> field_ok h ->
  nv_done krcnt base g allow V a h (encode_nv krcnt g nstreams base allow a h).
Proof.
  intros P F. pose proof P as [I St W L G M B N]. unfold encode_nv.
  set (mode := decide_mode (a_ctx a) h (lookup_token (nv_name h))).
  pose proof (mode_sensitive (a_ctx a) h) as Md. fold mode in Md.
  assert (Q : exists sres, (if static_entry (lookup_token (nv_name h)) then
                obind (lookup_stable (lookup_token (nv_name h)) (nv_value h) (is_never mode)) (fun r => Ok (Some r))
              else Ok None) = Ok sres /\
     match sres with None => True | Some (si, ex) => exists v t, stable_get si = Some (nv_name h, v, t) /\
        (ex = true -> v = nv_value h /\ sensitive h = false) end).
  { destruct (static_entry (lookup_token (nv_name h))) eqn:Se; [|exists None; auto].
    apply static_entry_range in Se.
    destruct (lookup_stable_spec (nv_name h) (nv_value h) (is_never mode) Se) as (i & ex & E & R & Rn & Rx & Rv).
    rewrite E. cbn [obind]. exists (Some (i, ex)). split; [auto|].
    destruct (stable_get_some i R) as (n & v & t & Sg). exists v, t. unfold row_name, row_value in *. rewrite Sg in *. subst n.
    split; [auto|]. intros Hx. split; [apply Rv; auto|]. apply Rx in Hx as [Hx _]. congruence. }
  destruct Q as (sres & Q & Ks). rewrite Q. cbn [obind]. clear Q.
  assert (Rest : nv_done krcnt base g allow V a h
    (obind (hash_of (lookup_token (nv_name h)) (nv_name h)) (fun hash =>
     obind (if nstreams <? MAX_QPACK_STREAMS then
                  map_find (bucket (a_ctx a) hash) (a_ctx a) h (lookup_token (nv_name h)) hash krcnt allow (is_never mode) None None
                else Ok (None, false, None)) (fun dres =>
    let '(m, exact, pb) := dres in
    let just := (nstreams <? MAX_QPACK_STREAMS) && is_store mode && match pb with None => true | Some _ => false end in
    match m, exact with
    | Some e, true => enc_exact a (e_abs e) base g allow
    | _, _ =>
      match sres with
      | Some (si, _) => enc_static_name a h si hash base g allow just
      | None =>
        match m with
        | Some e => enc_dynamic_name a h (e_abs e) hash base g allow just
        | None => enc_literal a h (lookup_token (nv_name h)) hash base g allow just
        end
      end
    end)))).
  { destruct (hash_of_ok (nv_name h)) as (hash & Eh). rewrite Eh. cbn [obind].
    assert (Q : exists m ex pb, (if nstreams <? MAX_QPACK_STREAMS then
                  map_find (bucket (a_ctx a) hash) (a_ctx a) h (lookup_token (nv_name h)) hash krcnt allow (is_never mode) None None
                else Ok (None, false, None)) = Ok (m, ex, pb) /\
       (forall e, m = Some e -> found (a_ctx a) h krcnt allow e /\ (ex = true -> e_value e = nv_value h)) /\
       (ex = true -> sensitive h = false)).
    { destruct (nstreams <? MAX_QPACK_STREAMS).
      - destruct (map_find_spec (a_ctx a) h hash krcnt allow (is_never mode) (bucket (a_ctx a) hash) W None None)
          as (m & ex & pb & E & K1 & K2 & K3); [apply bucket_in|discriminate|].
        exists m, ex, pb. split; [auto|]. split; [auto|]. intros Hx. destruct (K2 Hx) as [K|(e & K)]; [congruence|discriminate].
      - exists None, false, None. split; [auto|]. split; discriminate. }
    destruct Q as (m & ex & pb & Q & K1 & K2). rewrite Q. cbn [obind]. clear Q.
    set (just := (nstreams <? MAX_QPACK_STREAMS) && is_store mode && match pb with None => true | Some _ => false end).
    assert (Sj : just = true -> sensitive h = false).
    { subst just. intros H. apply andb_true_iff in H as [H _]. apply andb_true_iff in H as [_ H]. rewrite <- Md.
      destruct mode; [reflexivity|reflexivity|discriminate H]. }
    destruct m as [e|]; [destruct (K1 e eq_refl) as [K3 K4]|]; destruct ex.
    - apply enc_exact_done; auto.
    - destruct sres as [[si x]|].
      + destruct Ks as (v & t & Sg & _). eapply enc_static_name_done; eauto.
      + apply enc_dynamic_name_done; auto.
    - destruct sres as [[si x]|].
      + destruct Ks as (v & t & Sg & _). eapply enc_static_name_done; eauto.
      + apply enc_literal_done; auto.
    - destruct sres as [[si x]|].
      + destruct Ks as (v & t & Sg & _). eapply enc_static_name_done; eauto.
      + apply enc_literal_done; auto. }
  destruct sres as [[si [|]]|]; [|exact Rest|exact Rest].
  destruct Ks as (v & t & Sg & Kx). destruct (Kx eq_refl) as [-> Sn].
  destruct (rep_static_indexed si _ _ _ base Sg) as (Wr & Bs & Li). rewrite Wr. cbn [obind].
  exists (a_rep a (q_put_varint 192 si 6)), V, (q_put_varint 192 si 6), [], [], LIndexed. split; [reflexivity|].
  constructor; cbn [a_rep a_ctx a_max a_min a_rb a_eb]; auto.
  - rewrite app_nil_r. auto.
  - apply es_to_refl; auto.
  - rewrite expect_plain by (apply nonsens_never; auto). exact Bs.
  - congruence.
Qed.
