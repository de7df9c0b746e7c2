From Verif Require Import Base BaseLemmas GapModel GapSpec GapProofs.
Open Scope Z_scope.

Lemma id_ok id : stream_id_ok id -> id_from_stream_id id = id / 4 /\ 0 <= id / 4 /\ id / 4 + 1 < u64_max.
Proof.
  intros (A & B). unfold id_from_stream_id. rewrite Z.shiftr_div_pow2 by lia. change (2 ^ 2) with 4. rewrite u64max.
  pose proof (Z.div_pos id 4 A ltac:(lia)). assert (id / 4 <= id) by (apply Z.div_le_upper_bound; lia). unfold max_varint in B.
  rewrite u64_small by lia. repeat split; lia.
Qed.
Lemma is_pushed_1 g x : live g -> 0 <= x -> x + 1 < u64_max -> exists v, is_pushed g x 1 = Ok v /\ (v = true <-> ~ inside g x).
Proof.
  intros L A B. destruct (is_pushed_ok g x 1 L A ltac:(lia) B) as (v & E & H). exists v. split; auto. rewrite H. split.
  - intros H1. apply H1. lia.
  - intros H1 y Y. replace y with x by lia. auto.
Qed.
(* one call *)
Lemma idtr_open_ok g id : gaps_ok 0 g -> (g = [] \/ live g) -> stream_id_ok id ->
  exists rv g', idtr_open g id = Ok (rv, g') /\ (rv = 0 /\ inside (gap_init g) (id / 4) /\ live g' /\ zlen g' <= zlen (gap_init g) + 1 /\
     (forall x, inside g' x <-> inside (gap_init g) x /\ x <> id / 4) \/
   rv = ERR_STREAM_IN_USE /\ ~ inside (gap_init g) (id / 4) /\ g' = g /\ g <> []).
Proof.
  intros G L Hid. destruct (id_ok id Hid) as (E & I0 & I1). unfold idtr_open. rewrite E.
  assert (C : exists v, is_pushed g (id / 4) 1 = Ok v /\ (v = true <-> ~ inside (gap_init g) (id / 4)) /\ (v = true -> g <> [])).
  { destruct L as [ -> |L].
    - exists false. split; [reflexivity|]. split; [|discriminate]. split; [discriminate|]. intros N. exfalso. apply N. apply inside_full. lia.
    - destruct (is_pushed_1 g (id / 4) L I0 I1) as (v & Ev & Hv). exists v. destruct g; [destruct (inside_nil _ (proj2 L))|]. repeat split; auto; try apply Hv. discriminate. }
  destruct C as (v & -> & Hv & Nv). destruct v.
  - exists ERR_STREAM_IN_USE, g. split; [reflexivity|]. right. repeat split; auto. apply Hv. auto.
  - destruct (live_push g (id / 4) 1 G) as (g' & Ep & Lg & In'); auto; try lia. { destruct L as [ -> |L]; [left|right; apply L]; auto. }
    rewrite Ep. exists 0, g'. split; [reflexivity|]. left. split; auto.
    assert (INS : inside (gap_init g) (id / 4)).
    { destruct (existsb (fun k => (fst k <=? id / 4) && (id / 4 <? snd k)) (gap_init g)) eqn:Q.
      - apply existsb_exists in Q as (k & K & Q). exists k. split; auto. lia.
      - assert (X : ~ inside (gap_init g) (id / 4)).
        { intros (k & K & R). enough (existsb (fun k => (fst k <=? id / 4) && (id / 4 <? snd k)) (gap_init g) = true) by congruence. apply existsb_exists. exists k. split; auto. lia. }
        apply Hv in X. discriminate. }
    split; auto. split; auto. split.
    + rewrite push_eq in Ep by (auto; try lia; rewrite u64max in I1; lia). inversion Ep; subst g'. apply gap_init_ok in G. clear - G.
      revert G. generalize 0. generalize (gap_init g). intros l. set (q := (id / 4, id / 4 + 1)).
      induction l as [|k l IH]; intros z G; cbn in G; [cbn; lia|]. destruct G as (A & B & C).
      change (cutall q (k :: l)) with (cut1 q k ++ cutall q l). rewrite zlen_app, zlen_cons.
      destruct (Z_le_gt_dec (snd q) (snd k + 1)) as [D|D].
      * rewrite (cutall_after q ltac:(cbn; lia) l _ C D). unfold cut1. destruct (_ <? Z.min _ _); destruct (Z.max _ _ <? _); cbn [app]; rewrite ?zlen_cons, ?zlen_nil; lia.
      * specialize (IH _ C). unfold cut1. unfold q in D; cbn [fst snd] in D. replace (Z.max (fst k) (snd q) <? snd k) with false by (cbn; lia).
        destruct (_ <? Z.min _ _); cbn [app]; rewrite ?zlen_cons, ?zlen_nil; lia.
    + intros x. rewrite In'. split; intros (P & Q); split; auto; lia.
Qed.
Lemma expect_eq seen id : (exists i, In i seen /\ same_slot i id) -> expect seen id = ERR_STREAM_IN_USE.
Proof.
  intros (i & I & S). unfold expect. assert (E : existsb (Z.eqb (id / 4)) (map (fun i0 => i0 / 4) seen) = true); [|rewrite E; reflexivity].
  apply existsb_exists. exists (i / 4). split; [apply in_map_iff; eauto|]. unfold same_slot in S. lia.
Qed.
Lemma expect_new seen id : ~ (exists i, In i seen /\ same_slot i id) -> expect seen id = 0.
Proof.
  intros N. unfold expect. destruct (existsb _ _) eqn:E; auto. exfalso. apply N. apply existsb_exists in E as (y & Y & E).
  apply in_map_iff in Y as (i & <- & I). exists i. split; auto. unfold same_slot. lia.
Qed.
Lemma seen_dec seen id : (exists i, In i seen /\ same_slot i id) \/ ~ (exists i, In i seen /\ same_slot i id).
Proof.
  destruct (existsb (fun i => i / 4 =? id / 4) seen) eqn:E.
  - left. apply existsb_exists in E as (i & I & E). exists i. split; auto. unfold same_slot. lia.
  - right. intros (i & I & S). enough (existsb (fun i => i / 4 =? id / 4) seen = true) by congruence. apply existsb_exists. exists i. unfold same_slot in S. split; auto. lia.
Qed.
Definition exact_for (g : gaptr) (seen : list Z) : Prop :=
  gaps_ok 0 g /\ (g = [] \/ live g) /\ forall x, 0 <= x < u64_max -> (inside (gap_init g) x <-> ~ exists i, In i seen /\ i / 4 = x).
Lemma exact_init : exact_for gaptr_init [].
Proof. split; [exact I|]. split; [left; reflexivity|]. intros x X. cbn [gap_init gaptr_init]. rewrite inside_full. split; auto. intros _ (? & [] & _). Qed.
Lemma gap_init_live g : live g -> gap_init g = g.
Proof. intros (_ & L). destruct g; [destruct (inside_nil _ L)|reflexivity]. Qed.
Lemma exact_open g seen id : exact_for g seen -> stream_id_ok id -> exists g', idtr_open g id = Ok (expect seen id, g') /\ exact_for g' (id :: seen) /\ zlen g' <= zlen (gap_init g) + 1 /\ live g'.
Proof.
  intros (G & L & X) Hid. destruct (id_ok id Hid) as (_ & I0 & I1). destruct (idtr_open_ok g id G L Hid) as (rv & g' & E & [(-> & In0 & L' & Z' & In')|(-> & Nin & -> & NG)]).
  - exists g'. rewrite expect_new. 2:{ intros (i & I & S). rewrite X in In0 by lia. apply In0. eauto. }
    split; auto. split; [|split; auto]. split; [apply L'|]. split; auto. intros x Hx. rewrite (gap_init_live _ L'), In', X by auto. split.
    + intros (A & B) (i & [ -> |I] & S); [congruence|eauto].
    + intros A. split; intros B; apply A; [destruct B as (i & I & S); exists i; cbn; auto|exists id; cbn; auto].
  - exists g. rewrite X in Nin by lia. destruct L as [ -> |L]; [congruence|]. destruct (seen_dec seen id) as [S|S].
    + rewrite expect_eq by auto. split; auto. split; [|split; [rewrite (gap_init_live _ L); lia|auto]]. split; auto. split; auto. intros x Hx. rewrite X by auto. split.
      * intros A (i & [ <- |I] & Si); [|eauto]. destruct S as (j & J & Sj). apply A. exists j. unfold same_slot in Sj. split; auto. lia.
      * intros A (i & I & Si). apply A. exists i. cbn. auto.
    + exfalso. apply Nin. intros H. apply S. destruct H as (i & H1 & H2). exists i. split; auto.
Qed.
Theorem idtr_history ids : Forall stream_id_ok ids -> exists g, run_calls idtr_open gaptr_init ids = Ok (expected [] ids, g) /\
  forall id, stream_id_ok id -> exists v, idtr_is_open g id = Ok v /\ (v = true <-> exists i, In i ids /\ same_slot i id).
Proof.
  assert (GEN : forall ids g seen, exact_for g seen -> Forall stream_id_ok ids -> exists g', run_calls idtr_open g ids = Ok (expected seen ids, g') /\ exact_for g' (rev ids ++ seen)).
  { clear ids. induction ids as [|id ids IH]; intros g seen X F; [exists g; split; auto|]. inversion F; subst.
    destruct (exact_open g seen id X H1) as (g1 & E & X1 & _). destruct (IH g1 (id :: seen) X1 H2) as (g2 & E2 & X2).
    exists g2. cbn [run_calls expected rev]. rewrite E, E2. split; auto. rewrite <- app_assoc. exact X2. }
  intros F. destruct (GEN ids gaptr_init [] exact_init F) as (g & E & X). exists g. split; auto. intros id Hid. rewrite app_nil_r in X.
  destruct X as (G & L & X). destruct (id_ok id Hid) as (Eid & I0 & I1). unfold idtr_is_open. rewrite Eid. specialize (X (id / 4) ltac:(lia)). destruct L as [ -> |L].
  - exists false. split; [reflexivity|]. split; [discriminate|]. intros (i & I & S). exfalso. cbn [gap_init] in X. rewrite inside_full in X.
    apply (proj1 X); [lia|]. exists i. rewrite <- in_rev. auto.
  - destruct (is_pushed_1 g (id / 4) L I0 I1) as (v & Ev & Hv). exists v. split; auto. rewrite Hv. rewrite (gap_init_live _ L) in X. rewrite X. split.
    + intros N. destruct (seen_dec ids id) as [S|S]; auto. exfalso. apply N. intros (i & I & Q). apply S. exists i. rewrite in_rev. auto.
    + intros (i & I & S) N. apply N. exists i. rewrite <- in_rev. auto.
Qed.
(* the connection keeps at most 32 gaps *)
Definition over_for (g : gaptr) (seen : list Z) : Prop :=
  gaps_ok 0 g /\ (g = [] /\ seen = [] \/ live g) /\ zlen g <= 32 /\ Forall stream_id_ok seen /\
  (forall i, In i seen -> ~ inside (gap_init g) (i / 4)) /\
  (forall x, 0 <= x < u64_max -> (forall i, In i seen -> i / 4 < x) -> inside (gap_init g) x).
Lemma drop_inside k g m x : gaps_ok 0 (k :: g) -> g <> [] -> (forall y, m < y < u64_max -> inside (k :: g) y) -> m < x < u64_max -> inside g x.
Proof.
  intros G N H X. pose proof (H x X) as I. apply inside_cons in I as [I|I]; auto. exfalso.
  destruct g as [|k2 g]; [congruence|]. cbn [gaps_ok] in G. assert (S : inside (k :: k2 :: g) (snd k)) by (apply H; lia).
  apply inside_cons in S as [S|S]; [lia|]. assert (G2 : gaps_ok (snd k + 1) (k2 :: g)) by (cbn [gaps_ok]; tauto). pose proof (inside_lo _ _ _ G2 S). lia.
Qed.
Lemma max_of (seen : list Z) : Forall stream_id_ok seen -> exists m, -1 <= m < u64_max - 1 /\ (forall i, In i seen -> i / 4 <= m).
Proof.
  induction 1 as [|a seen Ha F (m & A & B)].
  - exists (-1). split; [pose proof u64max; lia|intros ? []].
  - destruct (id_ok a Ha) as (_ & I0 & I1). exists (Z.max m (a / 4)). split; [lia|]. intros i [ <- |I]; [|specialize (B i I)]; lia.
Qed.
Lemma over_init : over_for gaptr_init [].
Proof. split; [exact I|]. split; [left; auto|]. split; [rewrite zlen_nil; lia|]. split; auto. split; [intros ? []|]. intros x X _. apply inside_full. auto. Qed.
Lemma over_open g seen id : over_for g seen -> stream_id_ok id -> exists rv g', conn_bidi_idtr_open g id = Ok (rv, g') /\
  (rv = 0 /\ ~ (exists i, In i seen /\ same_slot i id) \/ rv = ERR_STREAM_IN_USE /\ (exists i, In i seen /\ id / 4 <= i / 4)) /\
  over_for g' (id :: seen).
Proof.
  intros (G & L & Z32 & FS & X & Y) Hid. destruct (id_ok id Hid) as (_ & I0 & I1).
  assert (L0 : g = [] \/ live g) by tauto.
  destruct (idtr_open_ok g id G L0 Hid) as (rv & g' & E & [(-> & In0 & L' & Z' & In')|(-> & Nin & -> & NG)]); unfold conn_bidi_idtr_open; rewrite E; cbn [Z.eqb negb].
  - exists 0. eexists. split; [reflexivity|].
    split. { left. split; auto. intros (i & I & S). apply (X i I). unfold same_slot in S. rewrite S. auto. }
    assert (HIGH : forall x, 0 <= x < u64_max -> (forall i, In i (id :: seen) -> i / 4 < x) -> inside g' x).
    { intros x Hx Hi. apply In'. split; [apply Y; auto; intros i I; apply Hi; right; auto|]. specialize (Hi id (or_introl eq_refl)). lia. }
    assert (LOW : forall i, In i (id :: seen) -> ~ inside g' (i / 4)).
    { intros i [ <- |I] H; apply In' in H; [lia|]. apply (X i I). apply H. }
    assert (Zg : zlen (gap_init g) <= 32). { destruct g; cbn [gap_init]; [unfold zlen; cbn; lia|auto]. }
    destruct (32 <? zlen g') eqn:Q.
    + destruct g' as [|k g1]; [rewrite zlen_nil in Q; lia|]. cbn [drop_first_gap tl]. rewrite zlen_cons in *.
      assert (N1 : g1 <> []) by (intros ->; rewrite zlen_nil in Q; lia).
      destruct (max_of (id :: seen)) as (m & M1 & M2). { constructor; auto. }
      assert (D : forall x, m < x < u64_max -> inside g1 x).
      { intros x Hx. apply (drop_inside k g1 m x); auto; [apply L'|]. intros y Hy. apply HIGH; [clear - M1 Hy; lia|]. intros i I. specialize (M2 i I). clear - M2 Hy; lia. }
      assert (Lg : live g1). { destruct L' as (A & _). cbn [gaps_ok] in A. split; [eapply gaps_lo; [|apply A]; clear - A; lia|]. apply D. clear - M1; lia. }
      split; [apply Lg|]. split; [right; exact Lg|]. split; [clear - Z' Zg; lia|]. split; [constructor; auto|]. rewrite (gap_init_live _ Lg). split.
      * intros i I H. apply (LOW i I). apply inside_cons. right. auto.
      * intros x Hx Hi. pose proof (HIGH x Hx Hi) as H. apply inside_cons in H as [H|H]; auto. exfalso.
        (* the last gap holds x *) destruct g1 as [|k2 g1]; [congruence|].
        assert (S : inside (k :: k2 :: g1) (snd k)).
        { destruct L' as (A & _). cbn [gaps_ok] in A. apply HIGH; [clear - A; lia|]. intros i I. specialize (Hi i I). clear - Hi H; lia. }
        apply inside_cons in S as [S|S]; [clear - S; lia|]. destruct L' as (A & _). cbn [gaps_ok] in A.
        assert (G2 : gaps_ok (snd k + 1) (k2 :: g1)) by (cbn [gaps_ok]; tauto). pose proof (inside_lo _ _ _ G2 S) as T. clear - T; lia.
    + split; [apply L'|]. split; [right; exact L'|]. split; [clear - Q; lia|]. split; [constructor; auto|]. rewrite (gap_init_live _ L'). auto.
  - exists ERR_STREAM_IN_USE. eexists. split; [reflexivity|]. split.
    { right. split; auto. destruct (existsb (fun i => id / 4 <=? i / 4) seen) eqn:Q.
      - apply existsb_exists in Q as (i & I & Q). exists i. split; auto. lia.
      - exfalso. apply Nin. apply Y; [lia|]. intros i I. destruct (Z_lt_ge_dec (i / 4) (id / 4)); auto. exfalso.
        enough (existsb (fun i => id / 4 <=? i / 4) seen = true) by congruence. apply existsb_exists. exists i. split; auto. lia. }
    destruct L as [(-> & _)|L]; [congruence|]. split; auto. split; auto. split; auto. split; [constructor; auto|]. split.
    + intros i [ <- |I]; auto.
    + intros x Hx Hi. apply Y; auto. intros i I. apply Hi. right. auto.
Qed.
Lemma over_exact g seen id : exact_for g seen -> stream_id_ok id -> zlen g <= 31 -> exists g', conn_bidi_idtr_open g id = Ok (expect seen id, g') /\ exact_for g' (id :: seen) /\ zlen g' <= zlen (gap_init g) + 1.
Proof.
  intros X Hid L. destruct (exact_open g seen id X Hid) as (g' & E & X' & Z' & _). unfold conn_bidi_idtr_open. rewrite E.
  assert (Zg : zlen (gap_init g) <= 31). { destruct g; cbn [gap_init]; [unfold zlen; cbn; lia|auto]. }
  exists g'. destruct (Z.eqb_spec (expect seen id) 0) as [Q|Q]; cbn [negb].
  - replace (32 <? zlen g') with false by lia. rewrite Q. auto.
  - auto.
Qed.
(* whole histories *)
Theorem conn_idtr_history ids : Forall stream_id_ok ids -> exists rvs g, run_calls conn_bidi_idtr_open gaptr_init ids = Ok (rvs, g) /\
  length rvs = length ids /\ zlen g <= 32 /\ Forall (fun rv => rv = 0 \/ rv = ERR_STREAM_IN_USE) rvs /\
  (* never twice *)
  (forall l1 i l2 j l3 r1 r2 r3 ri rj, ids = l1 ++ i :: l2 ++ j :: l3 -> rvs = r1 ++ ri :: r2 ++ rj :: r3 -> length r1 = length l1 -> length r2 = length l2 ->
     same_slot i j -> rj = ERR_STREAM_IN_USE) /\
  (* always, if above everything seen *)
  (forall l1 i l2 r1 ri r2, ids = l1 ++ i :: l2 -> rvs = r1 ++ ri :: r2 -> length r1 = length l1 -> (forall j, In j l1 -> j / 4 < i / 4) -> ri = 0) /\
  (* exactly once, if there are few *)
  (zlen ids <= 31 -> rvs = expected [] ids).
Proof.
  assert (GEN : forall ids g seen, over_for g seen -> Forall stream_id_ok ids -> exists rvs g', run_calls conn_bidi_idtr_open g ids = Ok (rvs, g') /\
     length rvs = length ids /\ zlen g' <= 32 /\ Forall (fun rv => rv = 0 \/ rv = ERR_STREAM_IN_USE) rvs /\
     (forall l1 i l2 r1 ri r2, ids = l1 ++ i :: l2 -> rvs = r1 ++ ri :: r2 -> length r1 = length l1 -> (forall j, In j (seen ++ l1) -> j / 4 < i / 4) -> ri = 0) /\
     (forall l1 j l2 r1 rj r2, ids = l1 ++ j :: l2 -> rvs = r1 ++ rj :: r2 -> length r1 = length l1 -> (exists i, In i (seen ++ l1) /\ same_slot i j) -> rj = ERR_STREAM_IN_USE)).
  { clear ids. induction ids as [|id ids IH]; intros g seen O F.
    - exists [], g. repeat split; auto; try apply O. all: intros [|] ? ? ? ? ? A; discriminate A.
    - inversion F; subst. destruct (over_open g seen id O H1) as (rv & g1 & E & C & O1). destruct (IH g1 (id :: seen) O1 H2) as (rvs & g2 & E2 & Ln & Zl & Fr & A & B).
      exists (rv :: rvs), g2. cbn [run_calls]. rewrite E, E2. split; [reflexivity|]. split; [cbn; congruence|]. split; auto. split.
      { constructor; auto. destruct C as [(-> & _)|(-> & _)]; auto. }
      split.
      + intros l1 i l2 r1 ri r2 P Q LL H. destruct l1 as [|a l1]; destruct r1 as [|b r1]; cbn in LL; try discriminate.
        * cbn in P, Q. inversion P; inversion Q; subst. destruct C as [(-> & _)|(-> & k & K & D)]; auto.
          specialize (H k). rewrite app_nil_r in H. specialize (H K). lia.
        * cbn in P, Q. inversion P; inversion Q; subst. eapply A; eauto. intros j J. apply H. apply in_app_iff in J as [[ <- |J]|J]; apply in_app_iff; cbn; auto.
      + intros l1 i l2 r1 ri r2 P Q LL H. destruct l1 as [|a l1]; destruct r1 as [|b r1]; cbn in LL; try discriminate.
        * cbn in P, Q. inversion P; inversion Q; subst. rewrite app_nil_r in H. destruct C as [(-> & N)|(-> & _)]; auto. destruct (N H).
        * cbn in P, Q. inversion P; inversion Q; subst. eapply B; eauto. destruct H as (j & J & S). exists j. split; auto.
          apply in_app_iff in J as [J|[ <- |J]]; apply in_app_iff; cbn; auto. }
  assert (SMALL : forall ids g seen, exact_for g seen -> Forall stream_id_ok ids -> zlen ids + (if g then 1 else zlen g) <= 32 -> exists g', run_calls conn_bidi_idtr_open g ids = Ok (expected seen ids, g')).
  { clear ids. induction ids as [|id ids IH]; intros g seen X F L; [eexists; reflexivity|]. inversion F; subst. rewrite zlen_cons in L.
    pose proof (zlen_nonneg _ ids). destruct (over_exact g seen id X H1) as (g1 & E & X1 & Z1). { destruct g; [rewrite zlen_nil; lia|lia]. }
    destruct (IH g1 (id :: seen) X1 H2) as (g2 & E2). { pose proof (zlen_nonneg _ g) as Z0. destruct g1; [destruct g; lia|]. destruct g; cbn [gap_init] in Z1; [change (zlen [(0, u64_max)]) with 1 in Z1|]; lia. }
    exists g2. cbn [run_calls expected]. rewrite E, E2. reflexivity. }
  intros F. destruct (GEN ids gaptr_init [] over_init F) as (rvs & g & E & Ln & Zl & Fr & A & B). exists rvs, g. split; auto. split; auto. split; auto. split; auto. split; [|split].
  - intros l1 i l2 j l3 r1 r2 r3 ri rj P Q L1 L2 S. apply (B (l1 ++ i :: l2) j l3 (r1 ++ ri :: r2) rj r3).
    + rewrite <- app_assoc. exact P. + rewrite <- app_assoc. exact Q. + rewrite !app_length. cbn. lia.
    + exists i. split; auto. cbn [app]. apply in_app_iff. cbn. auto.
  - intros l1 i l2 r1 ri r2 P Q LL H. eapply A; eauto.
  - intros L. destruct (SMALL ids gaptr_init [] exact_init F) as (g' & E'); [cbn; lia|]. rewrite E in E'. inversion E'. reflexivity.
Qed.
Theorem gap_history ps : Forall in_bounds ps -> ps <> [] ->
  exists g, run_calls push_call gaptr_init ps = Ok (map (fun _ => 0) ps, g) /\ gaps_ok 0 g /\
    (forall x, inside g x <-> 0 <= x < u64_max /\ ~ covered ps x) /\
    (forall o d, 0 <= o -> 0 < d -> o + d < u64_max -> exists v, is_pushed g o d = Ok v /\ (v = true <-> forall x, o <= x < o + d -> covered ps x)) /\
    (0 <= first_gap_offset g < u64_max /\ ~ covered ps (first_gap_offset g) /\ forall x, 0 <= x < first_gap_offset g -> covered ps x) /\
    (forall o, 0 <= o < u64_max -> exists b e, first_gap_after g o = Ok (b, e) /\ o < e <= u64_max /\ 0 <= b < e /\
        (forall x, b <= x < e -> ~ covered ps x) /\ (forall x, o <= x < b -> covered ps x) /\
        (0 < b -> covered ps (b - 1)) /\ (e < u64_max -> covered ps e)).
Proof.
  intros F N. destruct (pushes_ok ps F N) as (g & E & L & I).
  assert (DEC : forall x, covered ps x \/ ~ covered ps x).
  { intros x. destruct (existsb (fun p => (fst p <=? x) && (x <? fst p + snd p)) ps) eqn:Q.
    - left. apply existsb_exists in Q as ((o & d) & P & Q). exists o, d. cbn in Q. split; auto. lia.
    - right. intros (o & d & P & R). enough (existsb (fun p => (fst p <=? x) && (x <? fst p + snd p)) ps = true) by congruence.
      apply existsb_exists. exists (o, d). split; auto. cbn. lia. }
  assert (NI : forall x, 0 <= x < u64_max -> (~ inside g x <-> covered ps x)).
  { intros x X. rewrite I. destruct (DEC x); tauto. }
  exists g. split; auto. split; [apply L|]. split; auto. split; [|split].
  - intros o d O D B. destruct (is_pushed_ok g o d L O D B) as (v & Ev & Hv). exists v. split; auto. rewrite Hv. split; intros H x X; [apply NI|apply NI]; auto; lia.
  - destruct (first_gap_offset_ok g L) as (A & B). apply I in A as (A1 & A2). split; auto. split; auto. intros x X. apply NI; [lia|]. intros H. specialize (B x H). lia.
  - intros o O. destruct (first_gap_after_ok g o L O) as (b & e & Ef & A & B & C & D & P & Q).
    assert (R1 : 0 <= b) by (apply (I b); apply C; lia). assert (R2 : e <= u64_max) by (pose proof (proj1 (I (e - 1)) (C (e - 1) ltac:(lia))); lia).
    exists b, e. split; [exact Ef|]. split; [lia|]. split; [lia|]. split.
    + intros x X. apply (I x). apply C. auto.
    + split; [intros x X; apply NI; [lia|apply D; auto]|]. split; intros; apply NI; auto; lia.
Qed.
