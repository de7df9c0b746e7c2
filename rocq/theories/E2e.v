(* What one application submits and what the other one is given. *)
From Verif Require Import Base BaseLemmas ConvModel ConvSpec ConvProofs QpackIntSpec QpackTabModel QpackDynSpec QpackDecModel HttpSpec HttpModel BidiModel QpackEncModel QpackEncSpec QpackEncProofs QpackPeerProofs
  TxModel TxSpec ControlModel ConnModel ConnDecomp ConnHist RecvSpec SendSpec ConnTx TxGhost SendWire SendApi ConnSend2 RfcQpackSpec RfcPrim RfcSec RfcMain RfcStreamSpec IdealSec SecMean MeanStream MeanGrow MeanApi MeanListen QpackDynProofs QpackEncHistProofs RfcEnc EncRfc E2eSpec.
Open Scope Z_scope.

(* ---- frames ---- *)
Lemma rfc_varint_app l v r x : rfc_varint l = Some (v, r) -> rfc_varint (l ++ x) = Some (v, r ++ x).
Proof.
  unfold rfc_varint. destruct l as [|b t]; [discriminate|]. cbn [app]. cbv zeta. destruct (take_exact _ (b :: t)) as [[bs rest]|] eqn:E; [|discriminate]. intros [= <- <-].
  apply take_exact_spec in E. destruct E as [E1 E2].
  replace (take_exact (Z.to_nat (2 ^ (b / 64))) (b :: t ++ x)) with (Some (bs, rest ++ x)); [reflexivity|]. symmetry. apply take_exact_spec. split; [|exact E2].
  change (b :: t ++ x) with ((b :: t) ++ x). rewrite E1, app_assoc. reflexivity.
Qed.
Lemma rfc_varint_pos l v r : rfc_varint l = Some (v, r) -> 0 <= v.
Proof.
  unfold rfc_varint. destruct l as [|b t]; [discriminate|]. cbv zeta. destruct (take_exact _ (b :: t)) as [[bs rest]|] eqn:E; [|discriminate]. intros Q.
  apply (f_equal (fun o => match o with Some (v, _) => v | None => 0 end)) in Q. cbv beta iota in Q. subst v.
  destruct (Z_lt_le_dec (b / 64) 0) as [N|N].
  - rewrite (Z.pow_neg_r 2 (b / 64)) in * by lia. apply take_exact_spec in E as [_ E]. destruct bs; [|discriminate]. vm_compute. discriminate.
  - pose proof (Z.pow_pos_nonneg 2 (b / 64) ltac:(lia) N). apply Z.mod_pos_bound. apply Z.pow_pos_nonneg; lia.
Qed.
Lemma head_app l ty len p x : frame_head l ty len p -> frame_head (l ++ x) ty len (p ++ x).
Proof. intros (m & A & B). exists (m ++ x). split; apply rfc_varint_app; assumption. Qed.
Lemma framed_head ty p f : framed ty p f -> frame_head f ty (zlen p) p.
Proof.
  intros F. specialize (F [] ltac:(constructor)). rewrite app_nil_r in F. unfold rfc_frame in F. destruct (rfc_varint f) as [[t l1]|] eqn:E1; [|discriminate].
  destruct (rfc_varint l1) as [[n l2]|] eqn:E2; [|discriminate]. destruct (take_exact (Z.to_nat n) l2) as [[q r]|] eqn:E3; [|discriminate]. injection F as -> -> ->.
  apply take_exact_spec in E3 as [E3 E4]. rewrite app_nil_r in E3. subst l2. exists l1. split; [exact E1|]. rewrite E2. repeat f_equal. pose proof (rfc_varint_pos _ _ _ E2). unfold zlen. lia.
Qed.
Lemma head_nil ty len p : ~ frame_head [] ty len p. Proof. intros (m & A & _). discriminate. Qed.
Lemma split_eq (p r p' r' : list Z) : p ++ r = p' ++ r' -> zlen p = zlen p' -> p = p' /\ r = r'.
Proof. intros E L. apply app_inv_head_iff in E || idtac. revert p' E L. induction p as [|x p IH]; intros [|y p'] E L; cbn [app] in *; try (unfold zlen in L; cbn in L; lia); [auto|].
  injection E as -> E. destruct (IH p' E) as (-> & ->); [unfold zlen in *; cbn [length] in *; lia|]. auto. Qed.
Lemma split_le (p r p' r' : list Z) : p ++ r = p' ++ r' -> zlen p <= zlen p' -> exists x, p' = p ++ x /\ r = x ++ r'.
Proof.
  revert p'. induction p as [|x p IH]; intros p' E L; [exists p'; auto|]. destruct p' as [|y p']; [unfold zlen in L; cbn in L; lia|].
  cbn [app] in E. injection E as -> E. destruct (IH p' E) as (z & -> & ->); [unfold zlen in *; cbn [length] in *; lia|]. exists z. auto.
Qed.

(* ---- one stream ---- *)
Section Compare.
Variables (max n0 : Z) (H X : list field).
Hypothesis Hmax : 0 <= max.
Hypothesis Hn0 : 0 <= n0.
Hypothesis Hle : n0 <= zlen H.
(* the frame says [it] *)
Inductive fits : Z * list Z -> list item -> Prop :=
| ft_data p : fits (0, p) (map Byte p)
| ft_headers p ric hs : bytes p -> hs <> [] -> section_says max (H ++ X) p ric hs -> ric = 0 \/ zlen H - max / 32 < ric <= n0 + max / 32 ->
    fits (1, p) (Begin :: map Fld (map said hs) ++ [Finish])
| ft_other ty p : ty <> 0 -> ty <> 1 -> fits (ty, p) [].

Lemma drops_refl A (P : A -> Prop) l : drops P l l. Proof. induction l; constructor; auto. Qed.
Lemma drops_app A (P : A -> Prop) a a' b b' : drops P a a' -> drops P b b' -> drops P (a ++ b) (a' ++ b').
Proof. intros D. induction D; intros E; cbn [app]; [exact E|apply drops_keep; auto|apply drops_drop; auto]. Qed.
Lemma drops_fld qs ks : drops unwanted qs ks -> drops may_miss (map Fld qs) (map Fld ks).
Proof. intros D. induction D; cbn [map]; [constructor|apply drops_keep; auto|apply drops_drop; auto]. exists x. auto. Qed.
Lemma lines_more ric base l qs r : field_lines (numbered H) ric base l qs r -> field_lines (numbered (H ++ X)) ric base l qs r.
Proof. induction 1 as [l|l q k qs r A B IH]; [constructor|]. econstructor; [|exact IH]. eapply field_line_dyn; [|exact A]. intros i f _. apply numbered_app. Qed.
Lemma window n ric : count_then H n0 n -> ric = 0 \/ zlen H - max / 32 < ric <= n0 + max / 32 -> ric = 0 \/ n - max / 32 < ric <= n + max / 32.
Proof. unfold count_then. lia. Qed.
Lemma prefix_bytes n l ric base m : bytes l -> section_prefix max n l ric base m -> bytes m.
Proof. intros B (enc & b & t & de & _ & A1 & _ & A2 & _). eapply an_int_bytes; [|exact A2]. eapply an_int_bytes; [exact B|exact A1]. Qed.
Lemma nil_lines dyn ric base qs r : field_lines dyn ric base [] qs r -> qs = [] /\ r = [].
Proof. intros F. inversion F as [|? ? ? ? ? A B]; subst; [auto|]. apply field_line_len in A. cbn in A. lia. Qed.

Lemma whole_said p qs ric hs : bytes p -> section_says max (H ++ X) p ric hs -> ric = 0 \/ zlen H - max / 32 < ric <= n0 + max / 32 ->
  whole_section max H n0 p qs -> qs = map said hs.
Proof.
  intros B S W (n & ric' & base & m & C & P & _ & L). assert (Hn : 0 <= n) by (unfold count_then in C; lia).
  exact (proj2 (says_only max (H ++ X) p ric hs Hmax B S n ric' base m qs Hn (window n ric C W) P (lines_more _ _ _ _ _ L))).
Qed.
(* a part [p] of the section p ++ x *)
Lemma part_said p x qs ric hs : bytes (p ++ x) -> section_says max (H ++ X) (p ++ x) ric hs -> ric = 0 \/ zlen H - max / 32 < ric <= n0 + max / 32 ->
  part_section max H n0 p qs -> exists y, map said hs = qs ++ y /\ (x = [] -> y = []).
Proof.
  intros B (base0 & m0 & P0 & R0 & L0) W PS. destruct PS as [n C NP|n ric' base m qs r C P LE L NL].
  - exists (map said hs). split; [reflexivity|]. intros ->. exfalso. rewrite app_nil_r in P0. exact (NP _ _ _ (P0 n (window n ric C W))).
  - assert (Hn : 0 <= n) by (unfold count_then in C; lia). pose proof (section_prefix_app _ _ _ _ _ _ x P) as P'.
    destruct (prefix_fun max n (p ++ x) _ _ _ _ _ _ Hmax Hn B (P0 n (window n ric C W)) P') as (<- & <- & ->).
    pose proof (field_lines_app _ _ _ _ _ _ x (lines_more _ _ _ _ _ L)) as L'. pose proof (prefix_bytes _ _ _ _ _ B P') as Bm.
    destruct (lines_fun _ _ _ _ _ _ L0 Bm _ _ L') as [(y & E & Y)|(y & E & Y)].
    + apply nil_lines in Y as [-> Y]. exists []. rewrite app_nil_r in *. auto.
    + exists y. split; [exact E|]. intros ->. rewrite !app_nil_r in *. destruct y as [|q y]; [reflexivity|]. exfalso.
      inversion Y as [|? ? k ? ? A A2]; subst. apply (NL q k). destruct m as [|b m].
      * apply nil_lines in L as [_ ->]. apply field_line_len in A. cbn in A. lia.
      * eapply field_line_dyn; [|exact A]. intros i f Hi. apply numbered_back. specialize (LE ltac:(discriminate)). lia.
Qed.
Lemma fits_fun ty p it it' : fits (ty, p) it -> frame_means max H n0 ty p it' -> drops may_miss it it'.
Proof.
  intros F M. inversion F as [q|q ric hs B NE S W|t q N0 N1]; subst; inversion M as [q'|q' qs ks N WS D| |t' q' N0' N1']; subst; try congruence; try apply drops_refl.
  - rewrite <- (whole_said _ _ _ _ B S W WS). apply drops_keep. apply drops_app; [apply drops_fld; exact D|apply drops_refl].
  - exfalso. destruct S as (base & m & P & R & _). destruct (P n0) as (enc & b & t & de & _ & A1 & _); [destruct W as [->|W]; [left; reflexivity|right; lia]|]. exact (an_int_nil _ _ _ A1).
Qed.

(* complete frames *)
Lemma frames_cmp a its1 r : frames max H n0 a its1 r -> forall b fs items, a ++ b = concat (map snd fs) -> Forall (fun x => framed (fst (fst x)) (snd (fst x)) (snd x)) fs ->
  Forall2 fits (map fst fs) items -> exists fs2 items1 items2, items = items1 ++ items2 /\ Forall2 fits (map fst fs2) items2 /\
    Forall (fun x => framed (fst (fst x)) (snd (fst x)) (snd x)) fs2 /\ r ++ b = concat (map snd fs2) /\ drops may_miss (concat items1) its1.
Proof.
  intros F. induction F as [l|l ty len p r it its r' HD LN M FR IH]; intros b fs items E FF F2.
  - exists fs, [], items. repeat split; auto. constructor.
  - destruct fs as [|((ty1 & p1) & f) fs].
    { cbn in E. apply app_eq_nil in E as [-> _]. destruct (head_nil _ _ _ HD). }
    cbn [map concat snd fst] in E, F2. inversion FF as [|? ? F0 FF']; subst. cbn [fst snd] in F0. inversion F2 as [|? it0 ? items' T F2']; subst.
    pose proof (head_app _ _ _ _ b HD) as D1. rewrite E in D1. pose proof (head_app _ _ _ _ (concat (map snd fs)) (framed_head _ _ _ F0)) as D2.
    destruct (frame_head_fun _ _ _ _ _ _ _ D1 D2) as (-> & LE & RE). rewrite <- app_assoc in RE. destruct (split_eq _ _ _ _ RE LE) as (-> & RE').
    destruct (IH b fs items' RE' FF' F2') as (fs2 & i1 & i2 & -> & G1 & G2 & G3 & G4). exists fs2, (it0 :: i1), i2. repeat split; auto.
    cbn [concat]. apply drops_app; [exact (fits_fun _ _ _ _ T M)|exact G4].
Qed.
(* the beginning of a frame *)
Lemma framed_pos ty p f : framed ty p f -> f <> [].
Proof. intros F ->. destruct (head_nil _ _ _ (framed_head _ _ _ F)). Qed.
Lemma no_frames (fs : list (Z * list Z * list Z)) items : concat (map snd fs) = [] -> Forall (fun x => framed (fst (fst x)) (snd (fst x)) (snd x)) fs -> Forall2 fits (map fst fs) items -> concat items = [].
Proof.
  destruct fs as [|x fs]; intros E FF F2; [inversion F2; reflexivity|]. exfalso. cbn [map concat] in E. apply app_eq_nil in E as [E _]. inversion FF as [|? ? F0 ?]; subst. exact (framed_pos _ _ _ F0 E).
Qed.
Lemma part_cmp r its2 : part_frame max H n0 r its2 -> forall b fs items, r ++ b = concat (map snd fs) -> Forall (fun x => framed (fst (fst x)) (snd (fst x)) (snd x)) fs ->
  Forall2 fits (map fst fs) items -> exists i1 i2, concat items = i1 ++ i2 /\ drops may_miss i1 its2 /\
    (b = [] -> (forall len p, frame_head r 1 len p -> zlen p = len -> part_section max H n0 p []) -> i2 = []).
Proof.
  intros P b fs items E FF F2. destruct fs as [|((ty1 & p1) & f) fs].
  { cbn in E. apply app_eq_nil in E as [-> ->]. inversion F2; subst. destruct P as [NP|? ? HD|? ? ? ? HD|? ? ? HD]; try destruct (head_nil _ _ _ HD). exists [], []. split; [reflexivity|]. split; [constructor|auto]. }
  cbn [map concat snd fst] in E, F2. inversion FF as [|? ? F0 FF']; subst. cbn [fst snd] in F0. inversion F2 as [|? it0 ? items' T F2']; subst.
  pose proof (head_app _ _ _ _ (concat (map snd fs)) (framed_head _ _ _ F0)) as D2. cbn [concat].
  assert (RST : forall ty len p, frame_head r ty len p -> ty = ty1 /\ len = zlen p1 /\ p ++ b = p1 ++ concat (map snd fs)).
  { intros ty len p HD. pose proof (head_app _ _ _ _ b HD) as D1. rewrite E in D1. destruct (frame_head_fun _ _ _ _ _ _ _ D1 D2) as (-> & LE & RE). auto. }
  assert (LST : forall p, p ++ b = p1 ++ concat (map snd fs) -> zlen p <= zlen p1 -> b = [] -> p = p1 /\ concat items' = []).
  { intros p RE L ->. rewrite app_nil_r in RE. subst p. assert (concat (map snd fs) = []) as N. { destruct (concat (map snd fs)) as [|? ?]; [reflexivity|]. unfold zlen in L. rewrite app_length in L. cbn [length] in L. lia. }
    split; [rewrite N, app_nil_r; reflexivity|]. exact (no_frames _ _ N FF' F2'). }
  destruct P as [NP|len p HD L|len p qs ks HD L0 L PS D|ty len p HD N0 N1 L].
  - exists [], (it0 ++ concat items'). split; [reflexivity|]. split; [constructor|]. intros ->. exfalso. rewrite app_nil_r in E. rewrite E in NP. exact (NP _ _ _ D2).
  - destruct (RST _ _ _ HD) as (<- & -> & RE). destruct (split_le _ _ _ _ RE ltac:(lia)) as (x & -> & Eb). inversion T as [q|?|? q N0 N1]; subst; [|congruence].
    exists (map Byte p), (map Byte x ++ concat items'). split; [rewrite map_app, <- app_assoc; reflexivity|]. split; [apply drops_refl|]. intros Eb. destruct x; [|discriminate]. rewrite app_nil_r in L. lia.
  - destruct (RST _ _ _ HD) as (<- & -> & RE). destruct (split_le _ _ _ _ RE L) as (x & -> & Eb). inversion T as [|q ric hs B NE S W|? q N0 N1]; subst; [|congruence].
    destruct (part_said _ _ _ _ _ B S W PS) as (y & Y1 & Y2). exists (Begin :: map Fld qs), (map Fld y ++ [Finish] ++ concat items'). split; [rewrite Y1, map_app; cbn [app]; rewrite <- !app_assoc; reflexivity|].
    split; [apply drops_keep, drops_fld, D|]. intros Eb AL. exfalso. assert (x = []) as -> by (destruct x; [reflexivity|discriminate Eb]). rewrite app_nil_r in *. specialize (AL _ _ HD eq_refl).
    pose proof (part_said p [] [] ric hs) as Q. rewrite app_nil_r in Q. destruct (Q B S W AL) as (z & Z1 & Z2). rewrite (Z2 eq_refl) in Z1. destruct hs; [congruence|discriminate Z1].
  - destruct (RST _ _ _ HD) as (<- & -> & RE). inversion T as [|?|? q N0' N1']; subst; try congruence. exists [], (concat items'). split; [reflexivity|]. split; [constructor|].
    intros Eb. destruct (LST _ RE L Eb) as (_ & ->). auto.
Qed.
Lemma means_cmp a got : means max H n0 a got -> forall b fs items, a ++ b = concat (map snd fs) -> Forall (fun x => framed (fst (fst x)) (snd (fst x)) (snd x)) fs ->
  Forall2 fits (map fst fs) items -> exists rest, delivered (concat items) rest got.
Proof.
  intros (its1 & r & its2 & FR & PF & ->) b fs items E FF F2. destruct (frames_cmp _ _ _ FR b fs items E FF F2) as (fs2 & i1 & i2 & -> & G1 & G2 & G3 & G4).
  destruct (part_cmp _ _ PF b fs2 i2 G3 G2 G1) as (j1 & j2 & J1 & J2 & _). exists j2, (concat i1 ++ j1). rewrite concat_app, J1, app_assoc. split; [reflexivity|]. apply drops_app; auto.
Qed.
Lemma all_cmp a got : means_all max H n0 a got -> forall fs items, a = concat (map snd fs) -> Forall (fun x => framed (fst (fst x)) (snd (fst x)) (snd x)) fs ->
  Forall2 fits (map fst fs) items -> delivered (concat items) [] got.
Proof.
  intros (its1 & r & its2 & FR & PF & -> & AL) fs items E FF F2. rewrite <- (app_nil_r a) in E. destruct (frames_cmp _ _ _ FR [] fs items E FF F2) as (fs2 & i1 & i2 & -> & G1 & G2 & G3 & G4).
  destruct (part_cmp _ _ PF [] fs2 i2 G3 G2 G1) as (j1 & j2 & J1 & J2 & J3). rewrite J3, app_nil_r in J1; [|reflexivity|intros len p Q1 Q2; apply (AL _ _ Q1 Q2)].
  exists (concat i1 ++ j1). rewrite concat_app, J1, app_nil_r. split; [reflexivity|]. apply drops_app; auto.
Qed.
End Compare.

(* ---- what the frames of a stream say ---- *)
Lemma In_firstn {A} (l : list A) n x : In x (firstn n l) -> In x l.
Proof. intros I. rewrite <- (firstn_skipn n l). apply in_or_app. left. exact I. Qed.
Lemma in_sections l nva : In nva (sections l) -> In (TxModel.FHeaders nva) l.
Proof. unfold sections. intros I. apply in_concat in I as (x & I & J). apply in_map_iff in I as (f & <- & I). destruct f; try destruct J. { subst. exact I. } contradiction. Qed.
Lemma says_count E l open k j fs : says E l open k j fs -> k = length (sections l).
Proof. induction 1; rewrite ?sections_app, ?app_length; cbn [sections map concat app length]; lia. Qed.
Lemma nth_error_front {A} (a b : list A) k x : nth_error a k = Some x -> nth_error (a ++ b) k = Some x.
Proof. intros H. rewrite nth_error_app1; [exact H|]. apply nth_error_Some. congruence. Qed.
Lemma says_told E max n0 H X l open k j fs :
  (forall k nva p r e, nth_error (sections l) k = Some nva -> te_enc E k nva = Ok (p, r, e) -> fits max n0 H X (1, p ++ r) (Begin :: map Fld (as_fields nva) ++ [Finish])) ->
  says E l open k j fs -> exists items, Forall2 (fits max n0 H X) fs items /\ told E l open j (concat items).
Proof.
  intros HE S. assert (SN : forall items (it : list item), concat (items ++ [it]) = concat items ++ it) by (intros; rewrite concat_app; cbn [concat]; rewrite app_nil_r; reflexivity).
  assert (F2 : forall fs items x it, Forall2 (fits max n0 H X) fs items -> fits max n0 H X x it -> Forall2 (fits max n0 H X) (fs ++ [x]) (items ++ [it])) by (intros; apply Forall2_app; [assumption|constructor; [assumption|constructor]]).
  assert (OT : forall l0 j0 its f, told E l0 false j0 (concat its) -> ctl_frame f -> told E (l0 ++ [f]) false j0 (concat (its ++ [[]]))).
  { intros l0 j0 its f T C. rewrite concat_app. cbn [concat app]. rewrite app_nil_r. apply td_other; assumption. }
  induction S as [|l k j fs s p S IH P|l k j fs id p S IH P|l k j fs id data p S IH P|l k j fs nva p r e S IH P|l k j fs S IH|l k j fs S IH P|l k j fs vecs eof ne S IH P N|l k j fs vecs ne S IH P N].
  all: try rewrite sections_app in HE; try (destruct IH as (its & A & B); [intros k0 nva0 p0 r0 e0 NE; apply HE; try exact NE; apply nth_error_front; exact NE|]).
  - exists []. split; constructor.
  - exists (its ++ [[]]). split; [apply F2; [exact A|apply ft_other; lia]|apply OT; [exact B|exact Logic.I]].
  - exists (its ++ [[]]). split; [apply F2; [exact A|apply ft_other; lia]|apply OT; [exact B|exact Logic.I]].
  - exists (its ++ [[]]). split; [apply F2; [exact A|apply ft_other; lia]|apply OT; [exact B|exact Logic.I]].
  - assert (nth_error (sections l ++ sections [TxModel.FHeaders nva]) k = Some nva) as NK. { rewrite (says_count _ _ _ _ _ _ S), nth_error_app2, Nat.sub_diag by lia. reflexivity. }
    eexists (its ++ [_]). split; [apply F2; [exact A|exact (HE _ _ _ _ _ NK P)]|]. rewrite SN. apply td_headers. exact B.
  - exists its. split; [exact A|]. apply td_data. exact B.
  - exists its. split; [exact A|]. apply td_wait; assumption.
  - exists (its ++ [map Byte (concat vecs)]). split; [apply F2; [exact A|apply ft_data]|]. rewrite SN. eapply td_piece; eassumption.
  - exists its. split; [exact A|]. pose proof (td_piece E _ _ _ _ _ _ B P) as T. rewrite N, app_nil_r in T. exact T.
Qed.
(* ---- the bytes offered ---- *)
Lemma upto_all {A} n (w : list A) : zlen w <= n -> upto n w = w.
Proof. intros L. unfold upto. apply firstn_all2. unfold zlen in L. lia. Qed.
Lemma upto_len {A} n (w : list A) : 0 <= n <= zlen w -> zlen (upto n w) = n.
Proof. intros L. unfold upto, zlen in *. rewrite firstn_length. lia. Qed.
Lemma upto_upto {A} a b (w : list A) : 0 <= a <= b -> upto a (upto b w) = upto a w.
Proof. intros L. unfold upto. rewrite firstn_firstn. f_equal. lia. Qed.
Lemma upto_from {A} a n (w : list A) : 0 <= a -> 0 <= n -> upto a w ++ upto n (from a w) = upto (a + n) w.
Proof. intros L1 L2. unfold upto, from. rewrite Z2Nat.inj_add by lia. generalize (Z.to_nat a) (Z.to_nat n). intros x y. revert w. induction x as [|x IH]; intros w; [reflexivity|]. destruct w; cbn [firstn skipn Nat.add app]; [rewrite firstn_nil; reflexivity|]. f_equal. apply IH. Qed.
(* the transport takes no more than it was offered *)
Definition in_bounds (log : list tev) : Prop := forall pre post, log = pre ++ post -> 0 <= l_sent (tled pre) <= l_hi (tled pre).
Lemma wire_upto w log : offered_from w log -> in_bounds log -> l_hi (tled log) <= zlen w ->
  fold_left wire_step log ([], 0) = (upto (l_hi (tled log)) w, l_sent (tled log)).
Proof.
  induction log as [|e log IH] using rev_ind; intros O B L; [reflexivity|]. unfold tled in *. rewrite !fold_left_app in *. cbn [fold_left] in *.
  assert (B' : in_bounds log) by (intros pre post ->; apply (B pre (post ++ [e])); rewrite app_assoc; reflexivity).
  assert (O' : offered_from w log) by (intros pre vs fin post ->; apply (O pre vs fin (post ++ [e])); rewrite <- app_assoc; reflexivity).
  pose proof (B log [e] eq_refl) as BL. unfold tled in BL. set (Q := fold_left tled_step log led0) in *.
  assert (L' : l_hi Q <= zlen w) by (destruct e; cbn [tled_step l_hi] in L; lia).
  rewrite (IH O' B' L'). fold (tled log). destruct e as [frs fin|vs fin|n|off cs|n cs]; cbn [wire_step tled_step fst snd l_hi l_sent]; try reflexivity.
  pose proof (O log vs fin [] eq_refl) as Ov. fold Q in Ov. unfold tled in Ov. fold Q in Ov. cbn [tled_step l_hi] in L. rewrite upto_len by lia.
  destruct (l_hi Q <? l_sent Q + zlen (concat vs)) eqn:C.
  - apply Z.ltb_lt in C. rewrite Z.max_r by lia. rewrite upto_upto by lia. rewrite <- Ov at 1. rewrite upto_from; [reflexivity|lia|apply zlen_nonneg].
  - apply Z.ltb_ge in C. rewrite Z.max_l by lia. reflexivity.
Qed.
Lemma lawful_bounds tr : TxSpec.lawful tr -> 0 <= l_sent (ledger_of tr) <= l_hi (ledger_of tr).
Proof.
  induction tr as [|[o r] tr IH] using rev_ind; intros LW; [cbn; lia|].
  assert (LP : TxSpec.lawful tr) by (intros pre o' r' post ->; apply (LW pre o' r' (post ++ [(o, r)])); rewrite <- app_assoc; reflexivity).
  specialize (IH LP). pose proof (LW tr o r [] eq_refl) as O. rewrite ledger_snoc. cbn [fst snd]. destruct o; destruct r; cbn [led_step l_sent l_hi] in *; try lia. all: try (cbn [TxSpec.op_ok] in O; lia).
Qed.
Lemma good_bounds E ty t log : txgood E ty t log -> in_bounds log.
Proof.
  intros (tr & a & C & R & V & LW & SH) pre post EL.
  assert (exists tr1 tr2, tr = tr1 ++ tr2 /\ tvis tr1 = pre) as (tr1 & tr2 & -> & <-).
  { destruct post as [|e post]; [exists tr, []; rewrite !app_nil_r in *; split; [reflexivity|congruence]|]. destruct (tvis_split tr pre e post) as (t1 & x & t2 & -> & V1 & _); [congruence|]. exists t1, (x :: t2). auto. }
  rewrite <- ledger_tvis. apply lawful_bounds. intros p o r q ->. apply (LW p o r (q ++ tr2)). rewrite <- app_assoc. reflexivity.
Qed.

(* header sections are not empty *)
Lemma good_headers E ty t log nva : txgood E ty t log -> In (TxModel.FHeaders nva) (submitted log) -> nva <> [].
Proof.
  intros (tr & a & C & R & V & LW & SH) I. unfold submitted in I. apply in_concat in I as (l & I & J). apply in_map_iff in I as (e & <- & I). destruct e as [frs fin| | | |]; try destruct J.
  apply in_split in I as (pre & post & EL). destruct (tvis_split tr pre (TSubmit frs fin) post) as (t1 & (o & r) & t2 & -> & _ & V2 & _); [congruence|].
  pose proof (LW t1 o r t2 eq_refl) as O. destruct o as [frs' fin'| | | | | | | |]; cbn [tv1] in V2; try discriminate V2; try (destruct r; discriminate V2). destruct r; try discriminate V2. injection V2 as -> ->.
  cbn [TxSpec.op_ok] in O. rewrite Forall_forall in O. exact (O _ J).
Qed.

(* ---- both ends ---- *)
Lemma inserted_before_pos K h c id : 0 <= s_cap (ke_set K) -> history K h c -> 0 <= inserted_before id h.
Proof.
  intros CAP HI. unfold inserted_before, inserted_after. set (k := (length h - length (life id h))%nat). destruct (rev (firstn k h)) as [|x l] eqn:E; [lia|].
  assert (exists a, h = a ++ x :: skipn k h) as (a & EA). { exists (rev l). rewrite <- (firstn_skipn k h) at 1. rewrite <- (rev_involutive (firstn k h)), E. cbn [rev]. rewrite <- app_assoc. reflexivity. }
  destruct (history_split K h c HI _ _ _ EA) as (c1 & H1 & O & S). pose proof (h_snoc K _ _ _ _ _ _ H1 O S) as H2. replace (mk_call _ _ _ _) with x in H2 by (destruct x; reflexivity).
  destruct (api_insertions K CAP _ _ _ H2 (enc_exists K _ _ H2)) as (H & _ & N). rewrite N. apply zlen_nonneg.
Qed.
(* each frame of the sender fits what was submitted *)
Lemma sender_fits K1 h1 c1 id s1 hard ops E tr es es' H n0 : env_fine K1 -> history K1 h1 c1 -> sending_ok K1 h1 -> find_stream c1 id = Some s1 ->
  QpackEncSpec.history hard ops -> erun (enc_init hard) ops = Some (E, tr) -> replays tr id (ke_tx K1 id) (sections_made K1 c1 id h1) ->
  enc_bytes tr = es ++ es' -> insertions hard es H -> in_window hard n0 (zlen H) tr id ->
  exists X, forall k nva p r e, nth_error (sections_made K1 c1 id h1) k = Some nva -> te_enc (ke_tx K1 id) k nva = Ok (p, r, e) -> fits hard n0 H X (1, p ++ r) (Begin :: map Fld (as_fields nva) ++ [Finish]).
Proof.
  intros EF HI SO FS (H1 & H2 & H3) R RP Eq IN W. destruct (encoder_rfc 0 hard ops E tr H1 H2 H3 R) as (V & t & I & In1 & M & _ & S).
  assert (B : bytes (enc_bytes tr)) by (destruct (ei_es _ _ _ _ _ I) as (X & _); exact X). rewrite Eq in B.
  destruct (insertions_grow hard es es' H (t_all t) B IN) as (X & G); [exists t, []; rewrite <- Eq; split; [exact In1|]; split; [intros i r; apply an_einstr_nil|reflexivity]|].
  exists X. intros k nva p r e NV TE. destruct (RP _ _ _ _ _ NV TE) as (eb & ric & Hi). pose proof (S _ _ _ _ _ Hi) as SS. rewrite G in SS.
  replace (map Fld (as_fields nva)) with (map Fld (map said (map same_nv nva))) by (f_equal; apply map_map). apply (ft_headers hard n0 H X (p ++ r) ric).
  - exact (section_bytes _ _ _ _ _ _ _ _ _ _ I Hi).
  - pose proof (good_headers _ _ _ _ _ (hist_sending K1 EF h1 c1 id s1 HI SO FS) (in_sections _ _ (In_firstn _ _ _ (nth_error_In _ _ NV)))) as N. destruct nva; [congruence|discriminate].
  - exact SS.
  - exact (W _ _ _ _ Hi).
Qed.
Lemma inserted_len K h c es H : 0 <= s_cap (ke_set K) -> history K h c -> encoder_bytes K h c es -> insertions (s_cap (ke_set K)) es H -> inserted c = zlen H.
Proof.
  intros CAP HI EB IN. destruct (api_insertions K CAP h c es HI EB) as (H' & I' & N). rewrite N. f_equal. eapply insertions_fun; [|exact I'|exact IN].
  rewrite (enc_seen_api K h c es HI EB). exact (sb_bytes _ _ (dec_seen K CAP h c HI)).
Qed.
Lemma both_setup K1 h1 c1 K2 h2 c2 id ops E tr es es' more : env_fine K1 -> history K1 h1 c1 -> sending_ok K1 h1 -> is_open c1 id = true ->
  QpackEncSpec.history (s_cap (ke_set K2)) ops -> erun (enc_init (s_cap (ke_set K2))) ops = Some (E, tr) -> replays tr id (ke_tx K1 id) (sections_made K1 c1 id h1) ->
  history K2 h2 c2 -> client_bidi id = true -> is_open c2 id = true -> encoder_bytes K2 h2 c2 es ->
  enc_bytes tr = es ++ es' -> wire (slog K1 id h1) = given id (life id h2) ++ more -> in_window (s_cap (ke_set K2)) (inserted_before id h2) (inserted c2) tr id ->
  exists H X a b l unsent open k j fs items, 0 <= inserted_before id h2 <= zlen H /\ given id (life id h2) = a ++ b /\ means (s_cap (ke_set K2)) H (inserted_before id h2) a (content (all_shown id (life id h2))) /\
    (listens c2 id -> (forall n, ~ waits_for c2 id n) -> b = [] /\ means_all (s_cap (ke_set K2)) H (inserted_before id h2) a (content (all_shown id (life id h2)))) /\
    submitted (slog K1 id h1) = l ++ unsent /\ says (ke_tx K1 id) l open k j (map fst fs) /\ told (ke_tx K1 id) l open j (concat items) /\ Forall2 (fits (s_cap (ke_set K2)) (inserted_before id h2) H X) (map fst fs) items /\
    Forall (fun x => framed (fst (fst x)) (snd (fst x)) (snd x)) fs /\ concat (map snd fs) = (a ++ b) ++ more ++ from (l_hi (tled (slog K1 id h1))) (concat (map snd fs)) /\
    (forall pre vs post, slog K1 id h1 = pre ++ TOffer vs true :: post -> Forall (fun e => ~ adds_frames e) post ->
       unsent = [] /\ open = false /\ ended (ke_tx K1 id) (slog K1 id h1) j /\ from (l_hi (tled (slog K1 id h1))) (concat (map snd fs)) = []).
Proof.
  intros EF HI1 SO O1 EH R RP HI2 CB O2 EB Eq WI IW. destruct EH as (C1 & C2 & C3). assert (CAP : 0 <= s_cap (ke_set K2)) by lia.
  unfold is_open in O1. destruct (find_stream c1 id) as [s1|] eqn:FS; [clear O1|discriminate].
  assert (ST : stype id h1 = None). { destruct (stype id h1) as [n|] eqn:T; [|reflexivity]. exfalso. destruct (stype_local K1 EF h1 c1 id n HI1 SO T) as (LU & _). rewrite (local_not_bidi K1 id LU) in CB. discriminate. }
  destruct (api_means K2 CAP h2 c2 id es HI2 CB O2 EB) as (H & a & b & IN & LE & GV & ME & LS). rewrite (inserted_len K2 h2 c2 es H CAP HI2 EB IN) in IW.
  pose proof (inserted_before_pos K2 h2 c2 id CAP HI2) as N0. set (n0 := inserted_before id h2) in *.
  destruct (sender_fits K1 h1 c1 id s1 _ ops E tr es es' H n0 EF HI1 SO FS (conj C1 (conj C2 C3)) R RP Eq IN IW) as (X & FX).
  destruct (hist_sends K1 EF h1 c1 id s1 HI1 SO FS) as (wt & rest & op & j & D). rewrite ST in D. destruct (sd_frames _ _ _ _ _ _ _ _ D (or_introl eq_refl)) as (l & k & fs & w1 & SY & EW & (W1 & FF) & SB). cbn [preamble app] in EW. subst w1.
  destruct (says_told (ke_tx K1 id) (s_cap (ke_set K2)) n0 H X l op k j (map fst fs)) as (items & F2 & TD); [|exact SY|].
  { intros k0 nva p r e NE. apply FX. unfold sections_made, made. rewrite FS. pose proof (sd_made _ _ _ _ _ _ _ _ D (or_introl eq_refl)) as MD. rewrite SB, sections_app in MD |- *. rewrite app_length in MD.
    rewrite firstn_app. replace (t_nenc (st_t s1) - length (sections l))%nat with 0%nat by lia. rewrite app_nil_r, firstn_all2 by lia. exact NE. }
  pose proof (good_bounds _ _ _ _ (hist_sending K1 EF h1 c1 id s1 HI1 SO FS)) as GB. destruct (sd_led _ _ _ _ _ _ _ _ D) as (L1 & L2).
  assert (ZU : zlen (untag wt) = zlen wt) by (unfold untag, zlen; rewrite map_length; reflexivity).
  set (hi := l_hi (tled (slog K1 id h1))) in *.
  assert (WU : wire (slog K1 id h1) = upto hi (untag wt)). { unfold wire. rewrite (wire_upto (untag wt)); [reflexivity|apply D|exact GB|fold hi; lia]. }
  assert (WF : untag wt = (a ++ b) ++ more ++ from hi (untag wt)).
  { rewrite <- (firstn_skipn (Z.to_nat hi) (untag wt)) at 1. fold (upto hi (untag wt)). fold (from hi (untag wt)). rewrite <- WU, WI, GV, <- !app_assoc. reflexivity. }
  exists H, X, a, b, l, rest, op, k, j, fs, items. rewrite <- W1. split; [lia|]. split; [exact GV|]. split; [exact ME|]. split; [exact LS|]. split; [exact SB|]. split; [exact SY|]. split; [exact TD|]. split; [exact F2|]. split; [exact FF|]. split; [exact WF|].
  intros pre vs post EL FP. destruct (sd_fin _ _ _ _ _ _ _ _ D (or_introl eq_refl) pre vs post EL FP) as (A1 & A2 & A3 & A4). split; [exact A2|]. split; [exact A3|]. split; [exact A4|].
  assert (zlen (untag wt) <= hi) as Z.
  { pose proof (GB pre (TOffer vs true :: post) EL) as G1. pose proof (GB (pre ++ [TOffer vs true]) post ltac:(rewrite <- app_assoc; exact EL)) as G2.
    assert (MON : forall q L, l_hi L <= l_hi (fold_left tled_step q L)). { induction q as [|e q IH]; intros L; [cbn; lia|]. cbn [fold_left]. eapply Z.le_trans; [|apply IH]. destruct e; cbn [tled_step l_hi]; lia. }
    assert (HH : l_hi (tled (pre ++ [TOffer vs true])) <= hi). { unfold hi, tled. rewrite EL. replace (pre ++ TOffer vs true :: post) with ((pre ++ [TOffer vs true]) ++ post) by (rewrite <- app_assoc; reflexivity). rewrite (fold_left_app _ _ post). apply MON. }
    unfold tled in HH at 1. rewrite fold_left_app in HH. cbn [fold_left tled_step l_hi] in HH. fold (tled pre) in HH.
    assert (zlen (untag wt) = l_sent (tled pre) + zlen (concat vs) \/ zlen (untag wt) <= l_sent (tled pre)) as [Q|Q].
    { rewrite <- A1. unfold from, zlen. rewrite skipn_length. lia. }
    - lia.
    - pose proof (zlen_nonneg _ (concat vs)). lia. }
  unfold from. apply skipn_all2. unfold zlen in Z. lia.
Qed.
Theorem both_ends K1 h1 c1 K2 h2 c2 id ops E tr es es' more : env_fine K1 -> history K1 h1 c1 -> sending_ok K1 h1 -> is_open c1 id = true ->
  QpackEncSpec.history (s_cap (ke_set K2)) ops -> erun (enc_init (s_cap (ke_set K2))) ops = Some (E, tr) -> replays tr id (ke_tx K1 id) (sections_made K1 c1 id h1) ->
  history K2 h2 c2 -> client_bidi id = true -> is_open c2 id = true -> encoder_bytes K2 h2 c2 es ->
  enc_bytes tr = es ++ es' -> wire (slog K1 id h1) = given id (life id h2) ++ more -> in_window (s_cap (ke_set K2)) (inserted_before id h2) (inserted c2) tr id ->
  exists l unsent open j its rest, submitted (slog K1 id h1) = l ++ unsent /\ told (ke_tx K1 id) l open j its /\ delivered its rest (content (all_shown id (life id h2))).
Proof.
  intros A1 A2 A3 A4 A5 A6 A7 A8 A9 A10 A11 A12 A13 A14. assert (CAP : 0 <= s_cap (ke_set K2)) by apply A5.
  destruct (both_setup K1 h1 c1 K2 h2 c2 id ops E tr es es' more A1 A2 A3 A4 A5 A6 A7 A8 A9 A10 A11 A12 A13 A14) as (H & X & a & b & l & unsent & open & k & j & fs & items & N0 & GV & ME & _ & SB & SY & TD & F2 & FF & WF & _).
  rewrite <- app_assoc in WF. destruct (means_cmp _ _ H X CAP (proj1 N0) (proj2 N0) a _ ME _ fs items (eq_sym WF) FF F2) as (rest & DL). exists l, unsent, open, j, (concat items), rest. auto.
Qed.
Theorem both_ends_all K1 h1 c1 K2 h2 c2 id ops E tr es es' pre vs post : env_fine K1 -> history K1 h1 c1 -> sending_ok K1 h1 -> is_open c1 id = true ->
  QpackEncSpec.history (s_cap (ke_set K2)) ops -> erun (enc_init (s_cap (ke_set K2))) ops = Some (E, tr) -> replays tr id (ke_tx K1 id) (sections_made K1 c1 id h1) ->
  history K2 h2 c2 -> client_bidi id = true -> is_open c2 id = true -> encoder_bytes K2 h2 c2 es ->
  enc_bytes tr = es ++ es' -> wire (slog K1 id h1) = given id (life id h2)  -> in_window (s_cap (ke_set K2)) (inserted_before id h2) (inserted c2) tr id ->
  slog K1 id h1 = pre ++ TOffer vs true :: post -> Forall (fun e => ~ adds_frames e) post -> listens c2 id -> (forall n, ~ waits_for c2 id n) ->
  exists j its, told (ke_tx K1 id) (submitted (slog K1 id h1)) false j its /\ ended (ke_tx K1 id) (slog K1 id h1) j /\ delivered its [] (content (all_shown id (life id h2))).
Proof.
  intros A1 A2 A3 A4 A5 A6 A7 A8 A9 A10 A11 A12 A13 A14 FN NA LI NW. assert (CAP : 0 <= s_cap (ke_set K2)) by apply A5. rewrite <- (app_nil_r (given _ _)) in A13.
  destruct (both_setup K1 h1 c1 K2 h2 c2 id ops E tr es es' [] A1 A2 A3 A4 A5 A6 A7 A8 A9 A10 A11 A12 A13 A14) as (H & X & a & b & l & unsent & open & k & j & fs & items & N0 & GV & _ & ME & SB & SY & TD & F2 & FF & WF & FI).
  destruct (ME LI NW) as (-> & MA). destruct (FI _ _ _ FN NA) as (-> & -> & EN & LA). rewrite LA, !app_nil_r in WF. rewrite app_nil_r in SB. subst l.
  pose proof (all_cmp _ _ H X CAP (proj1 N0) (proj2 N0) a _ MA fs items (eq_sym WF) FF F2) as DL. exists j, (concat items). auto.
Qed.
