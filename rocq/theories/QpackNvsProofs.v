(* nghttp3_qpack_encoder_encode, the loop over the fields of a section. *)
From Verif Require Import Base BaseLemmas Tables ConvProofs QpackIntModel QpackIntSpec QpackIntProofs
  HuffModel HuffSpec HuffProofs QpackTabModel QpackTabSpec QpackTabProofs QpackDynSpec QpackDynProofs
  Chunk QpackDecModel QpackReadProofs QpackDecProofs QpackSecProofs QpackHistModel QpackHistProofs QpackCutProofs QpackEncModel
  QpackWireProofs QpackEncSpec QpackEncProofs QpackNvProofs.

Record evolved (g : option Z) (c0 c : ctx) (hs : list nv) : Prop := {
  ev_next : next_absidx c0 <= next_absidx c <= next_absidx c0 + zlen hs;
  ev_hard : hard_max c = hard_max c0; ev_max : max_cap c = max_cap c0;
  ev_blk : max_blocked c = max_blocked c0; ev_bad : bad c = bad c0;
  ev_in : forall f, In f (contents c) -> In f (contents c0) \/ exists h, In h hs /\ sensitive h = false /\ f = (nv_name h, nv_value h);
  ev_old : forall i f, at_index c i f -> i < next_absidx c0 -> at_index c0 i f;
  ev_keep : forall i f, at_index c0 i f -> protects g u64_max i -> at_index c i f }.
Lemma evolved_refl g c : evolved g c c [].
Proof. constructor; auto. rewrite zlen_nil. lia. Qed.

Record nvs_inv (krcnt base : Z) (g : option Z) (allow : bool) (V0 V : dec) (c0 : ctx) (eb0 : list Z) (a : acc)
    (hs : list nv) (refs : list (Z * fld)) (ks : list line_kind) : Prop := {
  ni_pre : nv_pre V g base a;
  ni_eb : exists eb, a_eb a = eb0 ++ eb /\ es_to V0 eb V;
  ni_tab : a_ctx a = c0 /\ d_ctx V = d_ctx V0 \/ sync (d_ctx V0) c0 /\ sync (d_ctx V) (a_ctx a);
  ni_evo : evolved g c0 (a_ctx a) hs;
  ni_max : a_max a = fmax 0 refs; ni_min : a_min a = fmin u64_max refs;
  ni_refs : Forall (fun r => at_index (a_ctx a) (fst r) (snd r) /\ (allow = true \/ fst r + 1 <= krcnt)) refs;
  ni_body : body_sem base refs (a_rb a) (map expect hs);
  ni_lines : forall rest ks', rfc_lines rest ks' -> rfc_lines (a_rb a ++ rest) (ks ++ ks');
  ni_good : Forall2 line_good hs ks }.

Lemma fmax_app m a b : fmax m (a ++ b) = fmax (fmax m a) b.
Proof. apply fold_left_app. Qed.
Lemma fmin_app m a b : fmin m (a ++ b) = fmin (fmin m a) b.
Proof. apply fold_left_app. Qed.
Lemma fmax_spec l : forall m, m <= fmax m l /\ (forall r, In r l -> fst r + 1 <= fmax m l) /\
  (fmax m l = m \/ exists r, In r l /\ fmax m l = fst r + 1).
Proof.
  induction l as [|x l IH]; intros m; unfold fmax; cbn [fold_left]; [split; [lia|split; [intros r []|auto]]|].
  fold (fmax (Z.max m (fst x + 1)) l). destruct (IH (Z.max m (fst x + 1))) as (A & B & C). split; [lia|]. split.
  - intros r [<-|R]; [lia|auto].
  - destruct C as [C|(r & R & C)]; [|right; exists r; split; [right; auto|auto]].
    destruct (Z.max_spec m (fst x + 1)) as [[_ E]|[_ E]]; rewrite E in *; [right; exists x; split; [left; auto|auto]|auto].
Qed.
Lemma fmin_spec l : forall m, fmin m l <= m /\ (forall r, In r l -> fmin m l <= fst r + 1) /\
  (fmin m l = m \/ exists r, In r l /\ fmin m l = fst r + 1).
Proof.
  induction l as [|x l IH]; intros m; unfold fmin; cbn [fold_left]; [split; [lia|split; [intros r []|auto]]|].
  fold (fmin (Z.min m (fst x + 1)) l). destruct (IH (Z.min m (fst x + 1))) as (A & B & C). split; [lia|]. split.
  - intros r [<-|R]; [lia|auto].
  - destruct C as [C|(r & R & C)]; [|right; exists r; split; [right; auto|auto]].
    destruct (Z.min_spec m (fst x + 1)) as [[_ E]|[_ E]]; rewrite E in *; [auto|right; exists x; split; [left; auto|auto]].
Qed.

Lemma grown_old g mn c c' f : ctx_wf c -> grown g mn c c' f -> forall i x, at_index c' i x -> i < next_absidx c -> at_index c i x.
Proof.
  intros W G i x [R E] H. destruct (gr_tab _ _ _ _ _ G) as (k & T). rewrite T, (gr_next _ _ _ _ _ G) in *.
  split; [lia|]. replace (Z.to_nat (next_absidx c + 1 - 1 - i)) with (S (Z.to_nat (next_absidx c - 1 - i))) in E by lia.
  cbn [nth_error] in E. revert E. generalize (Z.to_nat (next_absidx c - 1 - i)). intros n E.
  rewrite <- (firstn_skipn k (contents c)), nth_error_app1; [exact E|]. apply nth_error_Some. congruence.
Qed.
Lemma inr_keep g mn c c' f m : ctx_wf c -> grown g mn c c' f -> inr c m -> protects g mn (m - 1) -> inr c' m.
Proof.
  intros W G H P. destruct (at_ex c (m - 1) W) as (x & A); [exact H|].
  pose proof (gr_keep _ _ _ _ _ G _ _ A P) as A'. apply at_range in A'. exact A'.
Qed.

Lemma nvs_step krcnt base g allow ns V0 V c0 eb0 a hs refs ks h :
  nvs_inv krcnt base g allow V0 V c0 eb0 a hs refs ks -> field_ok h -> next_absidx c0 + zlen hs < 2 ^ 62 - 2 ->
  exists a' V' refs' ks', encode_nv krcnt g ns base allow a h = Ok a' /\
    nvs_inv krcnt base g allow V0 V' c0 eb0 a' (hs ++ [h]) refs' ks'.
Proof.
  intros [P (eb & Eb & To) Tb Ev Mx Mn Rf Bd Ln Gd] F Big.
  destruct (encode_nv_done krcnt base g allow ns V a h P F) as (a' & V' & rb & eb' & rs & k & E & Q).
  exists a', V', (refs ++ rs), (ks ++ [k]). split; [exact E|].
  destruct Q as [Qrb Qeb Qes Qtab Qmax Qmin Qrefs Qbody Qline Qsens Qkind].
  pose proof (np_wf _ _ _ _ P) as W.
  assert (Kr : Forall (fun r => at_index (a_ctx a') (fst r) (snd r) /\ (allow = true \/ fst r + 1 <= krcnt)) (refs ++ rs)).
  { apply Forall_app. split; [|exact Qrefs]. destruct Qtab as [(Ec & _)|(_ & _ & _ & mn & G & Hm)]; [rewrite Ec; exact Rf|].
    rewrite Forall_forall in *. intros r R. destruct (Rf r R) as [A1 A2]. split; [|auto].
    apply (gr_keep _ _ _ _ _ G); [auto|]. right. pose proof (proj1 (proj2 (fmin_spec refs u64_max)) r R). lia. }
  assert (Ev' : evolved g c0 (a_ctx a') (hs ++ [h])).
  { destruct Qtab as [(Ec & _)|(S1 & S2 & Sn & mn & G & Hm)].
    - destruct Ev as [E1 E2 E3 E4 E5 E6 E7 E8]. constructor; rewrite ?Ec; auto.
      + rewrite zlen_app, zlen_cons, zlen_nil. lia.
      + intros f Hf. destruct (E6 f Hf) as [X|(x & X & Y)]; [auto|right; exists x; split; [apply in_or_app; auto|auto]].
    - destruct Ev as [E1 E2 E3 E4 E5 E6 E7 E8]. pose proof (grown_old _ _ _ _ _ W G) as Go. destruct G as [G1 G2 G3 G4 G5 G6 G7 (n & G8) G9]. constructor; try congruence.
      + rewrite zlen_app, zlen_cons, zlen_nil. lia.
      + intros f Hf. rewrite G8 in Hf. destruct Hf as [<-|Hf].
        * right. exists h. split; [apply in_or_app; right; left; auto|auto].
        * assert (Hf2 : In f (contents (a_ctx a))). { rewrite <- (firstn_skipn n (contents (a_ctx a))). apply in_or_app. auto. }
          destruct (E6 f Hf2) as [X|(x & X & Y)]; [auto|right; exists x; split; [apply in_or_app; auto|auto]].
      + intros i f A H. apply E7; [|auto]. apply Go; [auto|lia].
      + intros i f A H. apply G9; [apply E8; auto|]. destruct H as [H|H]; [left; auto|].
        exfalso. apply at_range in A. pose proof (np_big _ _ _ _ P). unfold u64_max in H. lia. }
  constructor.
  - destruct P as [I St W' L G M B N]. destruct Qes as (Q1 & Q2 & Q3 & Q4).
    destruct Qtab as [(Ec & Ed & _)|(S1 & S2 & Sn & mn & Gr & Hm)].
    + constructor; rewrite ?Ec; auto.
      * unfold linked in *. rewrite Ed. auto.
      * destruct (fmin_spec rs (a_min a)) as (X1 & X2 & [X3|(r & X3 & X4)]).
        -- rewrite Qmin, X3. auto.
        -- right. rewrite Qmin, X4. rewrite Forall_forall in Qrefs. destruct (Qrefs r X3) as [A _]. rewrite Ec in A. apply at_range in A. unfold inr. lia.
    + constructor; auto.
      * apply S2.
      * left; auto.
      * intros m Hg. eapply inr_keep; eauto. left. exists m. split; [auto|lia].
      * destruct (fmin_spec rs (a_min a)) as (X1 & X2 & [X3|(r & X3 & X4)]).
        -- rewrite Qmin, X3. destruct M as [M|M]; [auto|]. right. eapply inr_keep; eauto. right. lia.
        -- right. rewrite Qmin, X4. rewrite Forall_forall in Qrefs. destruct (Qrefs r X3) as [A _]. apply at_range in A. unfold inr. lia.
      * rewrite (gr_next _ _ _ _ _ Gr). lia.
      * pose proof (ev_next _ _ _ _ Ev') as X. rewrite zlen_app, zlen_cons, zlen_nil in X. lia.
  - exists (eb ++ eb'). split; [rewrite Qeb, Eb, app_assoc; auto|]. eapply es_to_trans; eauto.
  - destruct Qtab as [(Ec & Ed & _)|(S1 & S2 & Sn & _)].
    + rewrite Ec, Ed. exact Tb.
    + right. split; [|auto]. destruct Tb as [[T1 T2]|[T1 _]]; [|auto]. rewrite <- T1, <- T2. auto.
  - exact Ev'.
  - rewrite fmax_app, Qmax, Mx. auto.
  - rewrite fmin_app, Qmin, Mn. auto.
  - exact Kr.
  - rewrite Qrb, map_app. apply body_app; auto.
  - intros rest ks' H. rewrite Qrb, <- !app_assoc. apply Ln. cbn [app]. econstructor; [apply Qline|]. auto.
  - apply Forall2_app; [auto|]. constructor; [|constructor]. split; auto.
Qed.

Lemma nvs_loop krcnt base g allow ns V0 c0 eb0 l : Forall field_ok l -> forall V a hs refs ks,
  nvs_inv krcnt base g allow V0 V c0 eb0 a hs refs ks -> next_absidx c0 + zlen hs + zlen l < 2 ^ 62 - 2 ->
  exists a' V' refs' ks', encode_nvs krcnt g ns base allow a l = Ok a' /\
    nvs_inv krcnt base g allow V0 V' c0 eb0 a' (hs ++ l) refs' ks'.
Proof.
  induction 1 as [|h l Fh Fl IH]; intros V a hs refs ks H Big; cbn [encode_nvs].
  - exists a, V, refs, ks. rewrite app_nil_r. auto.
  - rewrite zlen_cons in Big. pose proof (zlen_nonneg _ l).
    destruct (nvs_step krcnt base g allow ns _ _ _ _ _ _ _ _ h H Fh) as (a1 & V1 & r1 & k1 & E & H1); [lia|].
    rewrite E. cbn [obind]. destruct (IH _ _ _ _ _ H1) as (a2 & V2 & r2 & k2 & E2 & H2).
    { rewrite zlen_app, zlen_cons, zlen_nil. lia. }
    exists a2, V2, r2, k2. split; [auto|]. rewrite <- app_assoc in H2. exact H2.
Qed.

Lemma encode_nvs_done krcnt base g allow ns V c eb0 l : Forall field_ok l ->
  nv_pre V g base (mk_acc c 0 u64_max [] eb0) -> next_absidx c + zlen l < 2 ^ 62 - 2 ->
  exists a V' refs ks, encode_nvs krcnt g ns base allow (mk_acc c 0 u64_max [] eb0) l = Ok a /\
    nvs_inv krcnt base g allow V V' c eb0 a l refs ks.
Proof.
  intros F P B. apply (nvs_loop krcnt base g allow ns V c eb0 l F V _ [] [] []); [|rewrite zlen_nil; lia].
  constructor; cbn [a_ctx a_max a_min a_rb a_eb]; auto.
  - exists []. split; [rewrite app_nil_r; auto|apply es_to_refl; apply P].
  - apply evolved_refl.
  - apply body_nil.
Qed.
