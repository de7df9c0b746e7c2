(* The stored form of a stream (TxModel) against the flat one (TxSpec): representation invariant *)
From Verif Require Import Base BaseLemmas ConvModel ConvSpec ConvProofs TxModel TxSpec.

Definition flen (t : tbuf) : Z := b_last t - b_begin t.
Fixpoint total (q : list tbuf) : Z := match q with [] => 0 | t :: q' => flen t + total q' end.

Lemma tag_app b x y : tag b (x ++ y) = tag b x ++ tag b y. Proof. apply map_app. Qed.
Lemma untag_app x y : untag (x ++ y) = untag x ++ untag y. Proof. apply map_app. Qed.
Lemma untag_tag b l : untag (tag b l) = l.
Proof. unfold untag, tag; rewrite map_map; cbn [fst]; apply map_id. Qed.
Lemma zlen_tag b l : zlen (tag b l) = zlen l. Proof. unfold zlen, tag; rewrite map_length; auto. Qed.
Lemma zlen_untag l : zlen (untag l) = zlen l. Proof. unfold zlen, untag; rewrite map_length; auto. Qed.
Lemma app_bytes_app x y : app_bytes (x ++ y) = app_bytes x + app_bytes y.
Proof. unfold app_bytes; rewrite filter_app; apply zlen_app. Qed.
Lemma app_bytes_false l : app_bytes (tag false l) = 0.
Proof. unfold app_bytes; induction l; cbn; auto. Qed.
Lemma app_bytes_true l : app_bytes (tag true l) = zlen l.
Proof. unfold app_bytes; induction l as [|a l IH]; cbn [tag map filter snd]; [auto|rewrite !zlen_cons; unfold tag in IH; lia]. Qed.
Lemma tag_firstn b n l : firstn n (tag b l) = tag b (firstn n l). Proof. apply firstn_map. Qed.
Lemma zlen_firstn {A} n (l : list A) : 0 <= n <= zlen l -> zlen (firstn (Z.to_nat n) l) = n.
Proof. unfold zlen; rewrite firstn_length; lia. Qed.
Lemma from_app {A} n (x y : list A) : 0 <= n <= zlen x -> from n (x ++ y) = from n x ++ y.
Proof.
  intros H; unfold from; rewrite skipn_app.
  replace (Z.to_nat n - length x)%nat with 0%nat by (unfold zlen in H; lia); auto.
Qed.
Lemma from_0 {A} (x : list A) : from 0 x = x. Proof. reflexivity. Qed.
Lemma from_all {A} n (x : list A) : zlen x <= n -> from n x = [].
Proof. intros H; unfold from; apply skipn_all2; unfold zlen in H; lia. Qed.
Lemma from_skip {A} n (x y : list A) : zlen x <= n -> from n (x ++ y) = from (n - zlen x) y.
Proof.
  intros H; unfold from; rewrite skipn_app, (skipn_all2 x) by (unfold zlen in H; lia); cbn [app].
  f_equal; unfold zlen; lia.
Qed.
Lemma skipn_skipn' {A} a b (x : list A) : skipn a (skipn b x) = skipn (b + a) x.
Proof. revert x; induction b as [|b IH]; intros [|h t]; cbn [skipn Nat.add]; auto; destruct a; auto. Qed.
Lemma from_from {A} a b (x : list A) : 0 <= a -> 0 <= b -> from a (from b x) = from (a + b) x.
Proof. intros; unfold from; rewrite skipn_skipn'; f_equal; lia. Qed.
Lemma zlen_from {A} n (x : list A) : 0 <= n <= zlen x -> zlen (from n x) = zlen x - n.
Proof. intros H; unfold from, zlen in *; rewrite skipn_length; lia. Qed.
Lemma upto_app_l {A} n (x y : list A) : n <= zlen x -> upto n (x ++ y) = upto n x.
Proof.
  intros H; unfold upto; rewrite firstn_app.
  replace (Z.to_nat n - length x)%nat with 0%nat by (unfold zlen in H; lia); cbn; apply app_nil_r.
Qed.
Lemma upto_app_r {A} n (x y : list A) : zlen x <= n -> upto n (x ++ y) = x ++ upto (n - zlen x) y.
Proof.
  intros H; unfold upto; rewrite firstn_app, firstn_all2 by (unfold zlen in H; lia).
  f_equal; f_equal; unfold zlen; lia.
Qed.
Lemma upto_from {A} b n (w : list A) : 0 <= b <= n -> b <= zlen w -> upto n w = upto b w ++ upto (n - b) (from b w).
Proof.
  intros H Hb; rewrite <- (firstn_skipn (Z.to_nat b) w) at 1; fold (upto b w); fold (from b w).
  assert (zlen (upto b w) = b) as E by (apply zlen_firstn; lia).
  rewrite upto_app_r by lia; rewrite E; auto.
Qed.
Lemma zlen_sub d a b : 0 <= a <= b -> b <= zlen d -> zlen (sub d a b) = b - a.
Proof. intros; unfold sub; apply zlen_firstn; fold (from a d); rewrite zlen_from; lia. Qed.
Lemma sub_app_l d x a b : 0 <= a <= b -> b <= zlen d -> sub (d ++ x) a b = sub d a b.
Proof.
  intros H1 H2; unfold sub; fold (from a (d ++ x)); fold (from a d); rewrite from_app by lia.
  rewrite firstn_app; replace (_ - _)%nat with 0%nat by (pose proof (zlen_from a d); unfold zlen in *; lia).
  cbn; apply app_nil_r.
Qed.
Lemma sub_app_r d x : sub (d ++ x) (zlen d) (zlen d + zlen x) = x.
Proof.
  unfold sub; fold (from (zlen d) (d ++ x)); rewrite from_skip by lia.
  replace (zlen d - zlen d) with 0 by lia; rewrite from_0, firstn_all2; [auto|unfold zlen; lia].
Qed.
Lemma sub_cat d a b c : 0 <= a <= b -> b <= c -> sub d a b ++ sub d b c = sub d a c.
Proof.
  intros H1 H2; unfold sub.
  replace (Z.to_nat (c - a)) with (Z.to_nat (b - a) + Z.to_nat (c - b))%nat by lia.
  assert (skipn (Z.to_nat b) d = skipn (Z.to_nat (b - a)) (skipn (Z.to_nat a) d)) as ->
    by (rewrite skipn_skipn'; f_equal; lia).
  generalize (skipn (Z.to_nat a) d) (Z.to_nat (b - a)) (Z.to_nat (c - b)); clear; intros l n; revert l.
  induction n as [|n IH]; intros l m; cbn [firstn skipn Nat.add app]; auto.
  destruct l; cbn [firstn skipn app]; [destruct m; auto|rewrite IH; auto].
Qed.
Lemma sub_all d : sub d 0 (zlen d) = d.
Proof. unfold sub; cbn [Z.to_nat skipn]; rewrite Z.sub_0_r; apply firstn_all2; unfold zlen; lia. Qed.
Lemma sub_from d a b : 0 <= a <= b -> b <= zlen d -> forall x, 0 <= x <= b - a -> from x (sub d a b) = sub d (a + x) b.
Proof.
  intros H1 H2 x Hx; rewrite <- (sub_cat d a (a + x) b) by lia.
  rewrite from_skip by (rewrite zlen_sub; lia). rewrite zlen_sub by lia.
  replace (x - (a + x - a)) with 0 by lia; apply from_0.
Qed.

(* ---- the output queue holds these bytes ---- *)
Inductive rep : list chunk -> list tbuf -> list (Z * bool) -> Prop :=
| rep_nil : rep [] [] []
| rep_priv t cs q o : b_type t = BPrivate -> b_begin t = 0 -> b_last t = zlen (b_data t) -> rep cs q o ->
    rep cs (t :: q) (tag false (b_data t) ++ o)
| rep_alien t cs q o : b_type t = BAlien -> b_begin t = 0 -> b_last t = zlen (b_data t) -> b_data t <> [] -> rep cs q o ->
    rep cs (t :: q) (tag true (b_data t) ++ o)
| rep_last t c cs q o : b_type t = BShared -> b_mem t = ck_id c -> 0 <= b_begin t < b_last t -> b_last t = zlen (ck_data c) ->
    rep cs q o -> rep (c :: cs) (t :: q) (tag false (sub (ck_data c) (b_begin t) (b_last t)) ++ o)
| rep_mid t c cs q o : b_type t = BShared -> b_mem t = ck_id c -> 0 <= b_begin t < b_last t -> b_last t < zlen (ck_data c) ->
    rep (c :: cs) q o -> rep (c :: cs) (t :: q) (tag false (sub (ck_data c) (b_begin t) (b_last t)) ++ o).

Lemma rep_len cs q o : rep cs q o -> zlen o = total q.
Proof.
  induction 1 as [|t cs q o Ht Hb Hl H IH|t cs q o Ht Hb Hl Hn H IH|t c cs q o Ht Hm Hb Hl H IH|t c cs q o Ht Hm Hb Hl H IH];
    cbn [total]; unfold flen; [reflexivity|..]; rewrite ?zlen_app, ?zlen_tag, ?zlen_sub by lia; lia.
Qed.
Lemma rep_flen cs q o : rep cs q o -> Forall (fun t => 0 <= flen t /\ (b_type t <> BPrivate -> 0 < flen t)) q.
Proof.
  induction 1; constructor; auto; unfold flen.
  - split; [pose proof (zlen_nonneg _ (b_data t)); lia|congruence].
  - destruct (b_data t) eqn:E; [congruence|rewrite zlen_cons in *; pose proof (zlen_nonneg _ l); lia].
  - lia.
  - lia.
Qed.
Lemma rep_snoc_priv cs q o t : b_type t = BPrivate -> b_begin t = 0 -> b_last t = zlen (b_data t) -> rep cs q o ->
  rep cs (q ++ [t]) (o ++ tag false (b_data t)).
Proof.
  intros Ht Hb Hl; induction 1; cbn [app]; rewrite <- ?app_assoc; try (constructor; assumption).
  rewrite <- (app_nil_r (tag false (b_data t))); repeat constructor; auto.
Qed.
Lemma rep_snoc_alien cs q o t : b_type t = BAlien -> b_begin t = 0 -> b_last t = zlen (b_data t) -> b_data t <> [] -> rep cs q o ->
  rep cs (q ++ [t]) (o ++ tag true (b_data t)).
Proof.
  intros Ht Hb Hl Hn; induction 1; cbn [app]; rewrite <- ?app_assoc; try (constructor; assumption).
  rewrite <- (app_nil_r (tag true (b_data t))); repeat constructor; auto.
Qed.
Lemma rep_snoc_new cs q o t c : b_type t = BShared -> b_mem t = ck_id c -> 0 <= b_begin t < b_last t -> b_last t = zlen (ck_data c) ->
  rep cs q o -> rep (cs ++ [c]) (q ++ [t]) (o ++ tag false (sub (ck_data c) (b_begin t) (b_last t))).
Proof.
  intros Ht Hm Hb Hl; induction 1; cbn [app]; rewrite <- ?app_assoc; try (constructor; assumption).
  rewrite <- (app_nil_r (tag false (sub (ck_data c) (b_begin t) (b_last t)))); apply rep_last; auto; constructor.
Qed.
Lemma rep_snoc_ext cs q o : rep cs q o -> forall front c l t, cs = front ++ [c] -> l <> [] ->
  b_type t = BShared -> b_mem t = ck_id c -> b_begin t = zlen (ck_data c) -> b_last t = zlen (ck_data c) + zlen l ->
  rep (front ++ [mk_ck (ck_id c) (ck_cap c) (ck_data c ++ l)]) (q ++ [t]) (o ++ tag false l).
Proof.
  induction 1 as [|t1 cs q o Ht Hb Hl H IH|t1 cs q o Ht Hb Hl Hn H IH|t1 c1 cs q o Ht Hm Hb Hl H IH|t1 c1 cs q o Ht Hm Hb Hl H IH];
    intros front c l t Ecs Hn1 Ht1 Hm1 Hb1 Hl1; cbn [app]; rewrite <- ?app_assoc.
  - destruct front; discriminate.
  - constructor; auto.
  - constructor; auto.
  - assert (0 < zlen l) as Hp by (destruct l; [congruence|rewrite zlen_cons; pose proof (zlen_nonneg _ l); lia]).
    destruct front as [|c0 front]; cbn [app] in Ecs |- *; injection Ecs as -> Ecs.
    + subst cs. rewrite <- (sub_app_l (ck_data c) l) by lia.
      change (ck_data c ++ l) with (ck_data (mk_ck (ck_id c) (ck_cap c) (ck_data c ++ l))) at 2.
      apply rep_mid; auto; cbn [ck_data ck_id]; [rewrite zlen_app; lia|].
      pose proof (rep_snoc_new [] q o t (mk_ck (ck_id c) (ck_cap c) (ck_data c ++ l))) as Hx.
      cbn [ck_id ck_data app] in Hx. rewrite Hl1, Hb1, sub_app_r in Hx.
      apply Hx; auto; [pose proof (zlen_nonneg _ (ck_data c)); lia|rewrite zlen_app; auto].
    + constructor; auto.
  - assert (0 < zlen l) as Hp by (destruct l; [congruence|rewrite zlen_cons; pose proof (zlen_nonneg _ l); lia]).
    specialize (IH front c l t Ecs Hn1 Ht1 Hm1 Hb1 Hl1).
    destruct front as [|c0 front]; cbn [app] in Ecs, IH |- *; injection Ecs as -> Ecs.
    + subst cs. rewrite <- (sub_app_l (ck_data c) l) by lia.
      change (ck_data c ++ l) with (ck_data (mk_ck (ck_id c) (ck_cap c) (ck_data c ++ l))) at 2.
      apply rep_mid; auto; cbn [ck_data ck_id]; rewrite zlen_app; lia.
    + apply rep_mid; auto.
Qed.
Lemma rep_shared_inv cs t q o : b_type t = BShared -> rep cs (t :: q) o ->
  exists c cs1 o1, cs = c :: cs1 /\ b_mem t = ck_id c /\ 0 <= b_begin t < b_last t /\
    o = tag false (sub (ck_data c) (b_begin t) (b_last t)) ++ o1 /\
    ((b_last t = zlen (ck_data c) /\ rep cs1 q o1) \/ (b_last t < zlen (ck_data c) /\ rep (c :: cs1) q o1)).
Proof. intros T; inversion 1; subst; try congruence; do 3 eexists; repeat split; eauto; lia. Qed.
Definition merged (t1 t2 : tbuf) : tbuf := mk_tb (b_type t1) (b_mem t1) (b_data t1) (b_begin t1) (b_pos t1) (b_last t2).
Lemma rep_merge q : forall cs o t1 t2, NoDup (map ck_id cs) -> b_type t1 = BShared -> b_type t2 = BShared -> b_mem t1 = b_mem t2 ->
  b_last t1 = b_begin t2 -> rep cs (q ++ [t1; t2]) o -> rep cs (q ++ [merged t1 t2]) o.
Proof.
  induction q as [|t q IH]; cbn [app]; intros cs o t1 t2 Hnd T1 T2 Hm He H.
  - destruct (rep_shared_inv _ _ _ _ T1 H) as (c & cs1 & o1 & -> & M1 & B1 & -> & [[L1 R]|[L1 R]]);
      destruct (rep_shared_inv _ _ _ _ T2 R) as (c2 & cs2 & o2 & E2 & M2 & B2 & -> & R2).
    + exfalso; subst cs1. cbn [map] in Hnd; inversion Hnd as [|? ? Hi Hn]; subst; apply Hi; left; congruence.
    + injection E2 as <- <-. rewrite app_assoc, <- tag_app, He, sub_cat by lia.
      change (b_begin t1) with (b_begin (merged t1 t2)); change (b_last t2) with (b_last (merged t1 t2)).
      destruct R2 as [[L2 R2]|[L2 R2]]; [apply rep_last|apply rep_mid]; auto; cbn; lia.
  - inversion H; subst; [apply rep_priv|apply rep_alien|apply rep_last|apply rep_mid]; auto; eapply IH; eauto.
    cbn [map] in Hnd; inversion Hnd; auto.
Qed.
(* nothing depends on the send position *)
Definition but_pos (t u : tbuf) : Prop := b_type t = b_type u /\ b_mem t = b_mem u /\ b_data t = b_data u /\ b_begin t = b_begin u /\ b_last t = b_last u.
Lemma rep_but_pos cs q o : rep cs q o -> forall q', Forall2 but_pos q q' -> rep cs q' o.
Proof.
  induction 1; intros q' Hf; inversion Hf as [|a b l l' Hb Hf']; subst; [constructor|..];
    destruct Hb as (E1 & E2 & E3 & E4 & E5); rewrite ?E3, ?E4, ?E5 in *; rewrite ?E1, ?E2 in *.
  - apply rep_priv; auto; congruence.
  - apply rep_alien; auto; congruence.
  - apply rep_last; auto; congruence.
  - apply rep_mid; auto; congruence.
Qed.

(* ---- the send position: [x] bytes of the queue are sent ---- *)
Fixpoint posn (q : list tbuf) (idx : nat) (x : Z) : Prop :=
  match q, idx with
  | [], O => x = 0
  | [], S _ => False
  | t :: q', S i => b_pos t = b_last t /\ posn q' i (x - flen t)
  | t :: q', O => b_pos t = b_begin t + x /\ 0 <= x /\ (x < flen t \/ (flen t = 0 /\ x = 0)) /\
      Forall (fun u => b_pos u = b_begin u /\ 0 < flen u) q'
  end.
Lemma posn_le q : forall idx x, posn q idx x -> (idx <= length q)%nat.
Proof. induction q as [|t q IH]; intros [|i] x; cbn [posn length]; try tauto; try lia. intros [_ H]; apply IH in H; lia. Qed.
Lemma posn_nonneg q : forall idx x, Forall (fun t => 0 <= flen t) q -> posn q idx x -> 0 <= x.
Proof.
  induction q as [|t q IH]; intros [|i] x Hf; cbn [posn]; try lia; try tauto; inversion Hf; subst.
  intros [_ H]; apply IH in H; auto; lia.
Qed.
Lemma posn_all q : forall x, posn q (length q) x -> x = total q.
Proof. induction q as [|t q IH]; cbn [posn length total]; intros x H; [auto|destruct H as [_ H]; apply IH in H; lia]. Qed.
Lemma posn_snoc q : forall idx x t, posn q idx x -> b_pos t = b_begin t -> 0 < flen t \/ (flen t = 0 /\ idx = length q) -> posn (q ++ [t]) idx x.
Proof.
  induction q as [|u q IH]; intros idx x t H Hp Hl; cbn [app].
  - destruct idx; [|contradiction]; cbn [posn] in *; subst x; repeat split; auto; lia.
  - destruct idx as [|i]; cbn [posn length] in *.
    + destruct H as (A & B & C & D); repeat split; auto. apply Forall_app; split; auto. constructor; auto; split; auto; lia.
    + destruct H as [A B]; split; auto; apply IH; auto; destruct Hl as [?|[? ?]]; [auto|right; split; auto; lia].
Qed.
Lemma posn_merge q : forall idx x t1 t2, posn (q ++ [t1]) idx x -> 0 < flen t1 -> b_last t1 < b_last t2 ->
  posn (q ++ [merged t1 t2]) (if Nat.eqb (length (q ++ [t1])) idx then idx - 1 else idx) x.
Proof.
  induction q as [|u q IH]; intros idx x t1 t2 H H1 H2; cbn [app length] in *.
  - destruct idx as [|[|i]]; cbn [posn Nat.eqb Nat.sub] in *; unfold flen, merged in *; cbn [b_pos b_begin b_last]; [|destruct H; repeat split; auto; lia|destruct H; tauto].
    destruct H as (A & B & C & D); repeat split; auto; lia.
  - destruct idx as [|i]; cbn [Nat.eqb].
    + cbn [posn] in *. destruct H as (A & B & C & D); repeat split; auto.
      apply Forall_app in D as [D1 D2]; apply Forall_app; split; auto; inversion D2 as [|? ? [P L] ?]; subst; constructor; auto.
      unfold flen, merged in *; cbn; split; [auto|lia].
    + cbn [posn] in H. destruct H as [A B]. specialize (IH _ _ _ _ B H1 H2).
      destruct (Nat.eqb_spec (length (q ++ [t1])) i) as [E|E].
      * replace (S i - 1)%nat with (S (i - 1))%nat by (rewrite app_length in E; cbn in E; lia). cbn [posn]; auto.
      * cbn [posn]; auto.
Qed.
Lemma but_pos_refl t : but_pos t t. Proof. repeat split. Qed.
Lemma but_pos_list q : Forall2 but_pos q q. Proof. induction q; constructor; auto using but_pos_refl. Qed.
Lemma offset0 q : forall x i0 n, posn q 0 x -> 0 <= n -> n <= total q - x ->
  exists q2 k m, offset_loop q i0 n = (q2, (i0 + k)%nat, m) /\ posn q2 k (x + n) /\ Forall2 but_pos q q2 /\ ((k < length q)%nat \/ m = 0).
Proof.
  induction q as [|t q IH]; intros x i0 n H Hn Ht; cbn [posn total offset_loop length] in *.
  - exists [], 0%nat, n. rewrite Nat.add_0_r; repeat split; cbn [posn]; auto; lia.
  - destruct H as (A & B & C & D). unfold b_len. destruct (Z.ltb_spec n (b_last t - b_pos t)) as [L|L].
    + eexists (_ :: q), 0%nat, n. rewrite Nat.add_0_r; split; [reflexivity|]. cbn [posn b_pos b_begin]. unfold flen in *; cbn [b_last b_begin].
      repeat split; auto; try lia. constructor; [repeat split|apply but_pos_list].
    + destruct (IH 0 (S i0) (n - (b_last t - b_pos t))) as (q2 & k & m & E & P & F & K).
      * destruct q as [|u q]; cbn [posn]; [auto|]. inversion D as [|? ? [D1 D2] D3]; subst; repeat split; auto; lia.
      * lia.
      * unfold flen in *; lia.
      * rewrite E. eexists (_ :: q2), (S k), m. split; [f_equal; f_equal; lia|].
        cbn [posn b_pos b_last]. repeat split; auto.
        -- match goal with |- posn _ _ ?y => replace y with (0 + (n - (b_last t - b_pos t))) by (unfold flen in *; cbn [b_last b_begin]; lia) end; auto.
        -- constructor; [repeat split|auto].
        -- destruct K; [left; lia|right; auto].
Qed.
Lemma offset_gen q : forall idx x n i0, posn q idx x -> 0 <= n -> n <= total q - x ->
  exists q2 k m, offset_loop (skipn idx q) (i0 + idx) n = (q2, (i0 + k)%nat, m) /\ posn (firstn idx q ++ q2) k (x + n) /\
    Forall2 but_pos q (firstn idx q ++ q2) /\ ((k < length q)%nat \/ m = 0).
Proof.
  induction q as [|t q IH]; intros idx x n i0 H Hn Ht.
  - destruct idx; [|contradiction]. cbn [posn total skipn firstn offset_loop] in *.
    exists [], 0%nat, n; repeat split; auto; cbn [posn app]; try lia; constructor.
  - destruct idx as [|i].
    + cbn [skipn firstn app]. rewrite Nat.add_0_r. apply offset0; auto.
    + cbn [posn total skipn firstn app length] in *. destruct H as [A B].
      destruct (IH i (x - flen t) n (S i0) B Hn) as (q2 & k & m & E & P & F & K); [lia|].
      exists q2, (S k), m. replace (i0 + S i)%nat with (S i0 + i)%nat by lia. rewrite E.
      split; [f_equal; f_equal; lia|]. cbn [posn]. repeat split; auto.
      * replace (x + n - flen t) with (x - flen t + n) by lia; auto.
      * constructor; [apply but_pos_refl|auto].
      * destruct K; [left; lia|auto].
Qed.

(* ---- popping ---- *)
Lemma rep_pop cs t q o : rep cs (t :: q) o ->
  exists cs' c o', pop_chunk cs t = Ok cs' /\ rep cs' q o' /\ o = c ++ o' /\ zlen c = flen t /\
    (cs' = cs \/ exists h, cs = h :: cs') /\ (exists l, c = tag (match b_type t with BAlien => true | _ => false end) l).
Proof.
  inversion 1 as [|t0 cs1 q0 o0 Ht Hb Hl0 Hr|t0 cs1 q0 o0 Ht Hb Hl0 Hn Hr|t0 c cs1 q0 o0 Ht Hm Hb Hl0 Hr|t0 c cs1 q0 o0 Ht Hm Hb Hl0 Hr]; subst; unfold pop_chunk; rewrite Ht.
  - exists cs; do 2 eexists; repeat split; eauto. rewrite zlen_tag; unfold flen; lia.
  - exists cs; do 2 eexists; repeat split; eauto. rewrite zlen_tag; unfold flen; lia.
  - rewrite Hm, Z.eqb_refl; cbn [negb]. rewrite <- Hl0, Z.eqb_refl. do 3 eexists; split; [reflexivity|].
    repeat split; eauto. rewrite zlen_tag, zlen_sub; unfold flen; lia.
  - rewrite Hm, Z.eqb_refl; cbn [negb]. destruct (Z.eqb_spec (zlen (ck_data c)) (b_last t)); [lia|].
    do 3 eexists; split; [reflexivity|]. repeat split; eauto. rewrite zlen_tag, zlen_sub; unfold flen; lia.
Qed.

(* ---- what writev offers ---- *)
Definition lookup (cs0 cs : list chunk) : Prop := forall c, In c cs -> find_chunk cs0 (ck_id c) = Some c.
Lemma lookup_self cs : NoDup (map ck_id cs) -> lookup cs cs.
Proof.
  induction cs as [|c cs IH]; intros H x Hx; [contradiction|]. cbn [map] in H; inversion H as [|? ? Hi Hn]; subst.
  unfold find_chunk; cbn [find]. destruct (Z.eqb_spec (ck_id c) (ck_id x)) as [E|E].
  - destruct Hx as [->|Hx]; [auto|]. exfalso; apply Hi; rewrite E; apply in_map; auto.
  - destruct Hx as [->|Hx]; [congruence|]. apply IH; auto.
Qed.
(* the memory and contents of the first buffer *)
Lemma rep_first cs0 cs t q o : rep cs (t :: q) o -> lookup cs0 cs ->
  exists m cs' o' tg, b_memory cs0 t = Some m /\ 0 <= b_begin t /\ b_last t <= zlen m /\ 0 <= flen t /\
    o = tag tg (sub m (b_begin t) (b_last t)) ++ o' /\ rep cs' q o' /\ lookup cs0 cs'.
Proof.
  intros H Hl; inversion H as [|t0 cs1 q0 o0 Ht Hb Hl0 Hr|t0 cs1 q0 o0 Ht Hb Hl0 Hn Hr|t0 c cs1 q0 o0 Ht Hm Hb Hl0 Hr|t0 c cs1 q0 o0 Ht Hm Hb Hl0 Hr]; subst; unfold b_memory; rewrite Ht.
  - exists (b_data t), cs, o0, false. rewrite Hl0, Hb, sub_all. unfold flen. rewrite Hl0, Hb; pose proof (zlen_nonneg _ (b_data t)).
    repeat split; auto; lia.
  - exists (b_data t), cs, o0, true. rewrite Hl0, Hb, sub_all. unfold flen. rewrite Hl0, Hb; pose proof (zlen_nonneg _ (b_data t)).
    repeat split; auto; lia.
  - rewrite Hm, Hl by (left; auto). exists (ck_data c), cs1, o0, false; unfold flen; repeat split; auto; try lia.
    intros x Hx; apply Hl; right; auto.
  - rewrite Hm, Hl by (left; auto). exists (ck_data c), (c :: cs1), o0, false; unfold flen; repeat split; auto; try lia.
Qed.
Definition fresh (u : tbuf) : Prop := b_pos u = b_begin u /\ 0 < flen u.
Definition offers (o : list (Z * bool)) (n : nat) (vs : list (list Z)) (mq : list tbuf) : Prop :=
  exists more, untag o = concat vs ++ more /\ (more = [] <-> mq = []) /\ (length vs <= n)%nat /\ (more <> [] -> length vs = n) /\
    Forall (fun v => v <> []) vs.
Lemma zlen_pos_ne {A} (l : list A) : 0 < zlen l -> l <> [].
Proof. intros H ->; rewrite zlen_nil in H; lia. Qed.
Lemma writev_fresh cs0 q : forall cs o n, rep cs q o -> lookup cs0 cs -> Forall fresh q ->
  exists vs mq, writev_loop cs0 q n = Ok (vs, mq) /\ offers o n vs mq.
Proof.
  induction q as [|t q IH]; intros cs o n H Hl Hf.
  - inversion H; subst. exists [], []; split; [reflexivity|]. exists []; cbn; repeat split; auto; try lia; tauto.
  - destruct (rep_first cs0 _ _ _ _ H Hl) as (m & cs' & o' & tg & Em & Hb & Hm & Hfl & -> & Hr & Hl').
    inversion Hf as [|? ? [P L] Hf']; subst. cbn [writev_loop]. destruct n as [|n].
    + exists [], (t :: q); split; [reflexivity|]. eexists; split; [reflexivity|]. cbn [length]; repeat split; auto; try discriminate.
      rewrite untag_app, untag_tag. intros E; exfalso. apply app_eq_nil in E as [E _].
      apply (f_equal zlen) in E; rewrite zlen_sub, zlen_nil in E; unfold flen in *; lia.
    + unfold b_len; rewrite P. destruct (Z.eqb_spec (b_last t - b_begin t) 0) as [Z0|_]; [unfold flen in L; lia|].
      rewrite Em. destruct (IH cs' o' n Hr Hl' Hf') as (vs & mq & E & more & U & M & Ln & Lm & Nn). rewrite E; cbn [obind].
      eexists _, mq; split; [reflexivity|]. exists more. rewrite untag_app, untag_tag, U; cbn [concat length]. rewrite app_assoc.
      repeat split; try tauto; try lia.
      constructor; auto. apply zlen_pos_ne; rewrite zlen_sub; unfold flen in *; lia.
Qed.
Lemma writev_start cs0 q : forall cs o n x, rep cs q o -> lookup cs0 cs -> posn q 0 x -> n <> O ->
  exists vs mq, writev_loop cs0 q n = Ok (vs, mq) /\ offers (from x o) n vs mq.
Proof.
  intros cs o n x H Hl Hp Hn. destruct q as [|t q].
  - cbn [posn] in Hp; subst x; rewrite from_0. apply (writev_fresh cs0 [] cs); auto.
  - cbn [posn] in Hp; destruct Hp as (P & X & C & F).
    destruct (rep_first cs0 _ _ _ _ H Hl) as (m & cs' & o' & tg & Em & Hb & Hm & Hfl & -> & Hr & Hl').
    cbn [writev_loop]. destruct n as [|n]; [congruence|]. unfold b_len.
    assert (zlen (tag tg (sub m (b_begin t) (b_last t))) = flen t) as Zl by (rewrite zlen_tag, zlen_sub; unfold flen in *; lia).
    destruct (Z.eqb_spec (b_last t - b_pos t) 0) as [Z0|Z0].
    + rewrite from_skip by (rewrite Zl; unfold flen in *; lia). rewrite Zl.
      replace (x - flen t) with 0 by (unfold flen in *; lia). rewrite from_0. eapply writev_fresh; eauto.
    + rewrite Em. destruct (writev_fresh cs0 q cs' o' n Hr Hl' F) as (vs & mq & E & more & U & M & Ln & Lm & Nn). rewrite E; cbn [obind].
      eexists _, mq; split; [reflexivity|]. exists more.
      rewrite from_app by (rewrite Zl; unfold flen in *; lia).
      rewrite untag_app. replace (untag (from x (tag tg (sub m (b_begin t) (b_last t))))) with (sub m (b_pos t) (b_last t)).
      2:{ unfold untag, from, tag. rewrite skipn_map, map_map; cbn [fst]; rewrite map_id. fold (from x (sub m (b_begin t) (b_last t))).
          rewrite sub_from by (unfold flen in *; lia). f_equal; lia. }
      rewrite U; cbn [concat length]. rewrite app_assoc. repeat split; try tauto; try lia.
      constructor; auto. apply zlen_pos_ne; rewrite zlen_sub; unfold flen in *; lia.
Qed.
Lemma writev_ok cs0 q : forall cs o n idx x, rep cs q o -> lookup cs0 cs -> posn q idx x -> n <> O ->
  exists vs mq, writev_loop cs0 (skipn idx q) n = Ok (vs, mq) /\ offers (from x o) n vs mq.
Proof.
  induction q as [|t q IH]; intros cs o n idx x H Hl Hp Hn.
  - destruct idx; [|contradiction]. eapply writev_start; eauto.
  - destruct idx as [|i]; [eapply writev_start; eauto|]. cbn [posn skipn] in *. destruct Hp as [P Hp].
    destruct (rep_first cs0 _ _ _ _ H Hl) as (m & cs' & o' & tg & Em & Hb & Hm & Hfl & -> & Hr & Hl').
    assert (zlen (tag tg (sub m (b_begin t) (b_last t))) = flen t) as Zl by (rewrite zlen_tag, zlen_sub; unfold flen in *; lia).
    assert (0 <= x - flen t).
    { eapply posn_nonneg; [|eassumption]. apply rep_flen in Hr. eapply Forall_impl; [|apply Hr]. cbn; tauto. }
    rewrite from_skip by lia. rewrite Zl. eapply IH; eauto.
Qed.
