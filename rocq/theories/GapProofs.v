From Verif Require Import Base BaseLemmas GapModel GapSpec.
Open Scope Z_scope.

Lemma u64_small x : 0 <= x < 2 ^ 64 -> u64 x = x. Proof. intros. apply Z.mod_small. auto. Qed.
Lemma u64max : u64_max = 2 ^ 64 - 1. Proof. reflexivity. Qed.
Definition cut1 (q k : range) : list range :=
  (if fst k <? Z.min (snd k) (fst q) then [(fst k, Z.min (snd k) (fst q))] else []) ++
  (if Z.max (fst k) (snd q) <? snd k then [(Z.max (fst k) (snd q), snd k)] else []).
Definition cutall (q : range) (g : gaptr) : gaptr := flat_map (cut1 q) g.
Lemma inside_cons k g x : inside (k :: g) x <-> (fst k <= x < snd k) \/ inside g x.
Proof. unfold inside. split; [intros (j & [ -> |J] & H); eauto|intros [H|(j & J & H)]; [exists k|exists j]; cbn; auto]. Qed.
Lemma inside_nil x : ~ inside [] x. Proof. intros (? & [] & ?). Qed.
Lemma inside_app a b x : inside (a ++ b) x <-> inside a x \/ inside b x.
Proof. unfold inside. split; [intros (j & J & H); apply in_app_iff in J as [J|J]; eauto|intros [(j & J & H)|(j & J & H)]; exists j; rewrite in_app_iff; auto]. Qed.
Lemma gaps_lo lo lo' g : lo' <= lo -> gaps_ok lo g -> gaps_ok lo' g.
Proof. destruct g; cbn; intuition lia. Qed.
Lemma inside_lo lo g x : gaps_ok lo g -> inside g x -> lo <= x < u64_max.
Proof.
  revert lo. induction g as [|k g IH]; intros lo H I; [destruct (inside_nil _ I)|]. cbn in H. destruct H as (A & B & C).
  apply inside_cons in I as [I|I]; [lia|]. specialize (IH _ C I). lia.
Qed.
Lemma inside_cut1 q k x : fst q < snd q -> (inside (cut1 q k) x <-> (fst k <= x < snd k) /\ ~ (fst q <= x < snd q)).
Proof.
  intros Q. unfold cut1. rewrite inside_app.
  destruct (fst k <? Z.min (snd k) (fst q)) eqn:E1; destruct (Z.max (fst k) (snd q) <? snd k) eqn:E2; rewrite ?inside_cons; cbn [fst snd];
  split; intros H; repeat match goal with H : _ \/ _ |- _ => destruct H end; try (exfalso; eapply inside_nil; eassumption); try lia.
Qed.
Lemma inside_cutall q g x : fst q < snd q -> (inside (cutall q g) x <-> inside g x /\ ~ (fst q <= x < snd q)).
Proof.
  intros Q. induction g as [|k g IH].
  - cbn. split; [intros I; destruct (inside_nil _ I)|intros (I & _); destruct (inside_nil _ I)].
  - change (cutall q (k :: g)) with (cut1 q k ++ cutall q g). rewrite inside_app, inside_cons, IH, inside_cut1 by auto. tauto.
Qed.
Lemma cutall_ok q : fst q < snd q -> forall g lo, gaps_ok lo g -> gaps_ok lo (cutall q g).
Proof.
  intros Q. induction g as [|k g IH]; intros lo H; auto. cbn [gaps_ok] in H. destruct H as (A & B & C).
  change (cutall q (k :: g)) with (cut1 q k ++ cutall q g). specialize (IH _ C). unfold cut1.
  destruct (fst k <? Z.min (snd k) (fst q)) eqn:E1; destruct (Z.max (fst k) (snd q) <? snd k) eqn:E2; cbn [app gaps_ok fst snd].
  - repeat split; try lia. auto.
  - repeat split; try lia. eapply gaps_lo; [|exact IH]. lia.
  - repeat split; try lia. auto.
  - eapply gaps_lo; [|exact IH]. lia.
Qed.
Lemma cutall_after q : fst q < snd q -> forall g lo, gaps_ok lo g -> snd q <= lo -> cutall q g = g.
Proof.
  intros Q. induction g as [|k g IH]; intros lo H L; auto. cbn [gaps_ok] in H. destruct H as (A & B & C).
  change (cutall q (k :: g)) with (cut1 q k ++ cutall q g). rewrite (IH _ C) by lia. unfold cut1.
  replace (fst k <? Z.min (snd k) (fst q)) with false by lia. replace (Z.max (fst k) (snd q) <? snd k) with true by lia.
  replace (Z.max (fst k) (snd q)) with (fst k) by lia. destruct k; reflexivity.
Qed.
Lemma cutall_before q : fst q < snd q -> forall g, Forall (fun k => fst k < snd k /\ snd k <= fst q) g -> cutall q g = g.
Proof.
  intros Q. induction 1 as [|k g (A & B) F IH]; auto. change (cutall q (k :: g)) with (cut1 q k ++ cutall q g). rewrite IH. unfold cut1.
  replace (fst k <? Z.min (snd k) (fst q)) with true by lia. replace (Z.max (fst k) (snd q) <? snd k) with false by lia.
  replace (Z.min (snd k) (fst q)) with (snd k) by lia. destruct k; reflexivity.
Qed.
(* inserting past everything before and before everything after *)
Lemma kl_split_app c k : forall a b, Forall (fun x => c x k = true) a -> match b with x :: _ => c x k = false | [] => True end -> kl_split c k (a ++ b) = (a, b).
Proof.
  induction a as [|x a IH]; intros b A B; cbn [app kl_split].
  - destruct b as [|x b]; auto. cbn. rewrite B. reflexivity.
  - inversion A; subst. rewrite H1, IH; auto.
Qed.
Lemma kl_split_spec c k : forall l a b, kl_split c k l = (a, b) -> l = a ++ b /\ Forall (fun x => c x k = true) a /\ match b with x :: _ => c x k = false | [] => True end.
Proof.
  induction l as [|x l IH]; intros a b H; cbn in H; [inversion H; subst; auto|].
  destruct (c x k) eqn:E; [|inversion H; subst; auto]. destruct (kl_split c k l) as [a' b']. inversion H; subst. destruct (IH _ _ eq_refl) as (-> & A & B). auto.
Qed.
Lemma range_len_small k : 0 <= fst k -> fst k <= snd k <= u64_max -> range_len k = snd k - fst k.
Proof. intros. unfold range_len. apply u64_small. rewrite u64max in *. lia. Qed.
Lemma len0 k : 0 <= fst k -> fst k <= snd k <= u64_max -> (range_len k =? 0) = (fst k =? snd k).
Proof. intros. rewrite range_len_small by auto. lia. Qed.

Lemma push_loop_ok q : 0 <= fst q < snd q -> forall f after before lo, (length after < f)%nat -> 0 <= lo -> gaps_ok lo after ->
  Forall (fun k => fst k < lo) before -> Forall (fun k => fst q < snd k) after ->
  push_loop f q before after = Ok (before ++ cutall q after).
Proof.
  intros Q. induction f as [|f IH]; intros after before lo F L0 G B A; [lia|]. cbn [push_loop]. destruct after as [|k rest].
  - cbn. rewrite app_nil_r. reflexivity.
  - cbn [gaps_ok] in G. destruct G as (G1 & G2 & G3). inversion A as [|? ? A1 A2]; subst. cbn [length] in F.
    assert (BK : forall x, fst x < snd k + 1 -> Forall (fun k0 => fst k0 < snd k + 1) (before ++ [x])).
    { intros x X. apply Forall_app. split; [eapply Forall_impl; [|exact B]; cbn; intros; lia|constructor; auto]. }
    unfold range_intersect. destruct (Z.max (fst q) (fst k) <? Z.min (snd q) (snd k)) eqn:E.
    + rewrite len0 by (cbn; lia). cbn [fst snd]. replace (Z.max (fst q) (fst k) =? Z.min (snd q) (snd k)) with false by lia.
      unfold range_eq; cbn [fst snd]. unfold range_cut; cbn [fst snd].
      change (cutall q (k :: rest)) with (cut1 q k ++ cutall q rest). unfold cut1.
      destruct ((fst k =? Z.max (fst q) (fst k)) && (snd k =? Z.min (snd q) (snd k))) eqn:E2.
      * rewrite (IH rest before (snd k + 1)) by (auto; try lia; (eapply Forall_impl; [|exact B]; cbn; intros; lia)).
        replace (fst k <? Z.min (snd k) (fst q)) with false by lia. replace (Z.max (fst k) (snd q) <? snd k) with false by lia. reflexivity.
      * rewrite !len0 by (cbn; lia). cbn [fst snd].
        destruct (fst k =? Z.max (fst q) (fst k)) eqn:E3; cbn [negb].
        -- replace (Z.min (snd q) (snd k) =? snd k) with false by lia. cbn [negb].
           rewrite (IH rest _ (snd k + 1)) by (auto; try lia; apply BK; cbn; lia).
           replace (fst k <? Z.min (snd k) (fst q)) with false by lia. replace (Z.max (fst k) (snd q) <? snd k) with true by lia.
           rewrite <- app_assoc. cbn [app]. replace (Z.max (fst k) (snd q)) with (Z.min (snd q) (snd k)) by lia. reflexivity.
        -- replace (fst k <? Z.min (snd k) (fst q)) with true by lia.
           replace (Z.min (snd k) (fst q)) with (Z.max (fst q) (fst k)) by lia.
           destruct (Z.min (snd q) (snd k) =? snd k) eqn:E4; cbn [negb].
           ++ rewrite (IH rest _ (snd k + 1)) by (auto; try lia; apply BK; cbn; lia).
              replace (Z.max (fst k) (snd q) <? snd k) with false by lia. rewrite <- app_assoc. reflexivity.
           ++ replace (Z.max (fst k) (snd q) <? snd k) with true by lia.
              set (l := (fst k, Z.max (fst q) (fst k))). set (r := (Z.min (snd q) (snd k), snd k)).
              assert (KI : kl_insert r (before ++ l :: rest) = Ok (before ++ [l], rest)).
              { unfold kl_insert. replace (before ++ l :: rest) with ((before ++ [l]) ++ rest) by (rewrite <- app_assoc; reflexivity).
                rewrite kl_split_app.
                - destruct rest as [|x rest']; auto. cbn in G3. unfold range_compar, r. cbn [fst]. replace (Z.min (snd q) (snd k) <? fst x) with true by lia. reflexivity.
                - apply Forall_app. split; [eapply Forall_impl; [|exact B]|constructor; [|constructor]]; cbn; unfold range_compar, r, l; cbn [fst]; intros; lia.
                - destruct rest as [|x rest']; auto. cbn in G3. unfold range_compar, r. cbn [fst]. lia. }
              match goal with |- match ?X with _ => _ end = _ => replace X with (Ok (before ++ [l], rest)) by (symmetry; exact KI) end. rewrite (IH rest _ (snd k + 1)); auto; try lia.
              ** rewrite <- !app_assoc. cbn [app]. unfold r. replace (Z.max (fst k) (snd q)) with (Z.min (snd q) (snd k)) by lia. reflexivity.
              ** apply Forall_app. split; [apply BK; cbn; lia|constructor; auto; cbn; lia].
    + cbn [fst snd]. change (range_len (0, 0) =? 0) with true. cbn match.
      rewrite (cutall_after q ltac:(lia) (k :: rest) (fst k)); auto; [|lia]. cbn [gaps_ok]. repeat split; auto; lia.
Qed.
Lemma excl_iff k q : fst q < snd q -> fst k < snd k -> range_exclusive_compar k q = (snd k <=? fst q).
Proof. intros. unfold range_exclusive_compar. lia. Qed.
Lemma gaps_forall lo g : gaps_ok lo g -> Forall (fun k => lo <= fst k < snd k /\ snd k <= u64_max) g.
Proof.
  revert lo. induction g as [|k g IH]; intros lo H; constructor; cbn in H; destruct H as (A & B & C); [lia|].
  eapply Forall_impl; [|apply (IH _ C)]. cbn. intros. lia.
Qed.
Lemma gaps_sorted_end lo k g x : gaps_ok lo (k :: g) -> In x g -> snd k < snd x.
Proof. cbn. intros (A & B & C) I. apply gaps_forall in C. rewrite Forall_forall in C. specialize (C _ I). lia. Qed.
Lemma gaps_app lo a b : gaps_ok lo (a ++ b) -> exists lo', lo <= lo' /\ gaps_ok lo' b /\ Forall (fun k => fst k < lo') a.
Proof.
  revert lo. induction a as [|k a IH]; intros lo H; [exists lo; repeat split; auto; lia|]. cbn in H. destruct H as (A & B & C).
  destruct (IH _ C) as (lo' & L & G & F). exists lo'. repeat split; auto; [lia|]. constructor; auto. lia.
Qed.
Lemma split_ok lo g q : 0 <= lo -> gaps_ok lo g -> fst q < snd q -> exists a b, kl_split range_exclusive_compar q g = (a, b) /\ g = a ++ b /\
  Forall (fun k => fst k < snd k /\ snd k <= fst q) a /\ Forall (fun k => fst q < snd k) b.
Proof.
  intros L G Q. destruct (kl_split range_exclusive_compar q g) as [a b] eqn:E. exists a, b. split; auto.
  destruct (kl_split_spec _ _ _ _ _ E) as (-> & A & B). split; auto.
  pose proof (gaps_forall _ _ G) as F. apply Forall_app in F as [Fa Fb]. split.
  - rewrite Forall_forall in *. intros k K. specialize (A k K). specialize (Fa k K). rewrite excl_iff in A by lia. lia.
  - destruct b as [|x b]; constructor.
    + inversion Fb; subst. rewrite excl_iff in B by lia. lia.
    + destruct (gaps_app _ _ _ G) as (lo' & Hlo & Gb & _). apply Forall_forall. intros k K. pose proof (gaps_sorted_end _ _ _ _ Gb K).
      inversion Fb; subst. rewrite excl_iff in B by lia. lia.
Qed.
Lemma gap_init_ok g : gaps_ok 0 g -> gaps_ok 0 (gap_init g).
Proof. destruct g; cbn; auto. intros _. repeat split; try lia; rewrite u64max; reflexivity. Qed.
Lemma push_eq g o d : gaps_ok 0 g -> 0 <= o -> 0 < d -> o + d < 2 ^ 64 -> gaptr_push g o d = Ok (cutall (o, o + d) (gap_init g)).
Proof.
  intros G O D B. unfold gaptr_push. rewrite u64_small by lia. set (q := (o, o + d)).
  apply gap_init_ok in G. destruct (split_ok 0 (gap_init g) q ltac:(lia) G ltac:(cbn; lia)) as (a & b & S & E & A & Bb). rewrite S.
  rewrite E in *. destruct (gaps_app _ _ _ G) as (lo & L & Gb & Fa).
  rewrite (push_loop_ok q ltac:(cbn; lia) _ b a lo); auto. unfold cutall at 2. rewrite flat_map_app. fold (cutall q a) (cutall q b).
  rewrite (cutall_before q ltac:(cbn; lia) a); auto.
Qed.
Lemma push_zero g o : gaps_ok 0 g -> 0 <= o < 2 ^ 64 -> gaptr_push g o 0 = Ok (gap_init g).
Proof.
  intros G O. unfold gaptr_push. rewrite Z.add_0_r, u64_small by lia. destruct (kl_split _ _ (gap_init g)) as [a b] eqn:E.
  destruct (kl_split_spec _ _ _ _ _ E) as (-> & _ & _). cbn [push_loop]. destruct b as [|k b]; [rewrite app_nil_r; reflexivity|].
  unfold range_intersect. cbn [fst snd]. replace (Z.max o (fst k) <? Z.min o (snd k)) with false by lia. reflexivity.
Qed.
(* queries *)
Definition live (g : gaptr) : Prop := gaps_ok 0 g /\ inside g (u64_max - 1).
Lemma is_pushed_ok g o d : live g -> 0 <= o -> 0 < d -> o + d < u64_max ->
  exists v, is_pushed g o d = Ok v /\ (v = true <-> forall x, o <= x < o + d -> ~ inside g x).
Proof.
  intros (G & Lv) O D B. rewrite u64max in B. unfold is_pushed. rewrite u64_small by lia. set (q := (o, o + d)).
  destruct g as [|k0 g0]; [destruct (inside_nil _ Lv)|]. set (g := k0 :: g0) in *.
  destruct (split_ok 0 g q ltac:(lia) G ltac:(cbn; lia)) as (a & b & S & E & A & Bb). rewrite S. cbn [snd].
  rewrite E in *. destruct b as [|k b].
  - exfalso. rewrite app_nil_r in Lv. destruct Lv as (k & K & I). rewrite Forall_forall in A. specialize (A k K). cbn in A. rewrite u64max in I. lia.
  - eexists. split; [reflexivity|]. destruct (gaps_app _ _ _ G) as (lo & L & Gb & Fa). cbn [gaps_ok] in Gb. destruct Gb as (G1 & G2 & G3). inversion Bb as [|? ? B1 B2]; subst. cbn in B1.
    assert (INA : forall x, o <= x -> inside (a ++ k :: b) x -> fst k <= x).
    { intros x X I. apply inside_app in I as [(j & J & I)|I]; [rewrite Forall_forall in A; specialize (A j J); cbn in A; lia|].
      apply inside_cons in I as [I|I]; [lia|]. pose proof (inside_lo _ _ _ G3 I). lia. }
    unfold range_intersect. cbn [fst snd q]. destruct (Z.max o (fst k) <? Z.min (o + d) (snd k)) eqn:Q.
    + rewrite len0 by (cbn; lia). cbn [fst snd]. split; [lia|]. intros H. exfalso. apply (H (Z.max o (fst k))); [lia|].
      apply inside_app. right. apply inside_cons. left. lia.
    + change (range_len (0, 0) =? 0) with true. split; auto. intros _ x X I. specialize (INA x ltac:(lia) I). lia.
Qed.
Lemma first_gap_after_ok g o : live g -> 0 <= o < u64_max -> exists b e, first_gap_after g o = Ok (b, e) /\ o < e /\ b < e /\
  (forall x, b <= x < e -> inside g x) /\ (forall x, o <= x < b -> ~ inside g x) /\ ~ inside g (b - 1) /\ ~ inside g e.
Proof.
  intros (G & Lv) O. unfold first_gap_after. pose proof O as O'. rewrite u64max in O'. rewrite u64_small by lia. set (q := (o, o + 1)).
  destruct g as [|k0 g0]; [destruct (inside_nil _ Lv)|]. set (g := k0 :: g0) in *.
  destruct (split_ok 0 g q ltac:(lia) G ltac:(cbn; lia)) as (a & b & S & E & A & Bb). rewrite S. cbn [snd].
  rewrite E in *. destruct b as [|k b].
  - exfalso. rewrite app_nil_r in Lv. destruct Lv as (k & K & I). rewrite Forall_forall in A. specialize (A k K). cbn in A. rewrite u64max in I. lia.
  - exists (fst k), (snd k). destruct k as [kb ke]. cbn [fst snd]. split; [reflexivity|].
    destruct (gaps_app _ _ _ G) as (lo & L & Gb & Fa). cbn [gaps_ok fst snd] in Gb. destruct Gb as (G1 & G2 & G3). inversion Bb as [|? ? B1 B2]; subst. cbn in B1.
    assert (ALL : forall x, inside (a ++ (kb, ke) :: b) x -> x < kb - 1 /\ x < o \/ kb <= x < ke \/ ke < x).
    { intros x I. apply inside_app in I as [I|I].
      - left. clear - I G A. revert G A I. generalize 0. induction a as [|j a IH]; intros z G A I; [destruct (inside_nil _ I)|].
        inversion A as [|? ? A1 A2]; subst. cbn [app gaps_ok] in G. destruct G as (X1 & X2 & X3). apply inside_cons in I as [I|I].
        + cbn in A1. assert (snd j + 1 <= kb); [|lia]. clear - X3. destruct (gaps_app _ _ _ X3) as (lo & L & Gb & Fa). cbn in Gb. lia.
        + apply (IH _ X3 A2 I).
      - right. apply inside_cons in I as [I|I]; [left; auto|right]. pose proof (inside_lo _ _ _ G3 I). lia. }
    repeat split; try lia.
    + intros x X. apply inside_app. right. apply inside_cons. left. auto.
    + intros x X I. specialize (ALL x I). lia.
    + intros I. specialize (ALL _ I). lia.
    + intros I. specialize (ALL _ I). lia.
Qed.
Lemma first_gap_offset_ok g : live g -> inside g (first_gap_offset g) /\ forall x, inside g x -> first_gap_offset g <= x.
Proof.
  intros (G & Lv). destruct g as [|k g]; [destruct (inside_nil _ Lv)|]. cbn in *. destruct G as (A & B & C). split.
  - apply inside_cons. left. lia.
  - intros x I. apply inside_cons in I as [I|I]; [lia|]. pose proof (inside_lo _ _ _ C I). lia.
Qed.
Lemma live_push g o d : gaps_ok 0 g -> (g = [] \/ inside g (u64_max - 1)) -> 0 <= o -> 0 <= d -> o + d < u64_max ->
  exists g', gaptr_push g o d = Ok g' /\ live g' /\ forall x, inside g' x <-> inside (gap_init g) x /\ ~ (o <= x < o + d).
Proof.
  intros G Lv O D B. assert (Lv' : inside (gap_init g) (u64_max - 1)).
  { destruct Lv as [ -> |Lv]; [|destruct g; [destruct (inside_nil _ Lv)|exact Lv]]. exists (0, u64_max). cbn [fst snd gap_init In]. rewrite u64max. split; auto. lia. }
  destruct (Z.eq_dec d 0) as [ -> |D0].
  - exists (gap_init g). rewrite push_zero by (auto; rewrite u64max in B; lia). split; auto. split; [split; auto; apply gap_init_ok; auto|].
    intros x. split; [intros I; split; auto; lia|tauto].
  - rewrite push_eq by (auto; rewrite ?u64max in B; lia). eexists. split; [reflexivity|].
    assert (Q : fst (o, o + d) < snd (o, o + d)) by (cbn; lia). split; [split|].
    + apply cutall_ok; auto. apply gap_init_ok; auto.
    + apply inside_cutall; auto. split; auto. cbn [fst snd]. lia.
    + intros x. rewrite inside_cutall by auto. cbn. tauto.
Qed.
(* histories of pushes *)
Definition in_bounds (p : Z * Z) : Prop := 0 <= fst p /\ 0 <= snd p /\ fst p + snd p < u64_max.
Lemma pushes_gen : forall ps g, gaps_ok 0 g -> (g = [] \/ inside g (u64_max - 1)) -> Forall in_bounds ps ->
  exists g', run_calls push_call g ps = Ok (map (fun _ => 0) ps, g') /\ gaps_ok 0 g' /\ (ps <> [] -> g' <> []) /\ (g' = [] \/ inside g' (u64_max - 1)) /\
    forall x, inside (gap_init g') x <-> inside (gap_init g) x /\ ~ covered ps x.
Proof.
  induction ps as [|p ps IH]; intros g G Lv F.
  - exists g. repeat split; auto; try tauto; try (intros I; destruct I as (? & ? & [] & _)). all: intuition.
  - inversion F as [|? ? (P1 & P2 & P3) F']; subst. destruct (live_push g (fst p) (snd p) G Lv P1 P2 P3) as (g1 & E & (G1 & L1) & I1).
    destruct (IH g1 G1 (or_intror L1) F') as (g2 & E2 & G2 & N2 & L2 & I2). exists g2. cbn [run_calls map]. unfold push_call at 1. rewrite E, E2.
    split; [reflexivity|]. split; auto.
    assert (NG1 : g1 <> []) by (intros ->; destruct (inside_nil _ L1)). split.
    { intros _ ->. destruct ps as [|p2 ps]; [|apply N2; [discriminate|reflexivity]]. cbn in E2. inversion E2. auto. }
    split; auto. intros x. rewrite I2. assert (GI : gap_init g1 = g1) by (destruct g1; [congruence|reflexivity]). rewrite GI, I1.
    unfold covered. split.
    + intros ((A & B) & C). split; auto. intros (o & d & [ -> |H] & R); [apply B; exact R|apply C; eauto].
    + intros (A & B). repeat split; auto; intros C; apply B; [exists (fst p), (snd p); split; [left; destruct p; reflexivity|auto]|].
      destruct C as (o & d & H & R). exists o, d. split; auto. right. auto.
Qed.
Lemma inside_full x : inside [(0, u64_max)] x <-> 0 <= x < u64_max.
Proof. rewrite inside_cons. cbn. split; [intros [H|H]; auto; destruct (inside_nil _ H)|auto]. Qed.
Theorem pushes_ok ps : Forall in_bounds ps -> ps <> [] ->
  exists g, run_calls push_call gaptr_init ps = Ok (map (fun _ => 0) ps, g) /\ live g /\ forall x, inside g x <-> 0 <= x < u64_max /\ ~ covered ps x.
Proof.
  intros F N. destruct (pushes_gen ps [] I (or_introl eq_refl) F) as (g & E & G & NG & L & IN). exists g. split; auto.
  specialize (NG N). destruct L as [L|L]; [congruence|]. split; [split; auto|]. intros x.
  replace g with (gap_init g) by (destruct g; [congruence|reflexivity]). rewrite IN. cbn [gap_init]. rewrite inside_full. tauto.
Qed.
