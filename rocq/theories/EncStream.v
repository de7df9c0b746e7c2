(* The encoder stream of a connection carries the instructions of its header sections, in the order they were encoded *)
From Verif Require Import Base BaseLemmas ConvModel QpackTabModel QpackEncModel QpackEncSpec ControlModel TxModel TxSpec TxProofs TxFill SchedModel ConnModel ConnStep ConnWf ConnDecomp ConnHist ConnKind SendSpec ConnTx TxGhost ConnSend ConnSend2 SafeWrite SendApi E2eSpec EncStreamSpec.
Open Scope Z_scope.

(* lists *)
Lemma concat_nil_map {A B} (f : A -> list B) l : (forall x, In x l -> f x = []) -> concat (map f l) = [].
Proof. induction l as [|x l IH]; intros H; [reflexivity|]. cbn [map concat]. rewrite H by (left; reflexivity). apply IH. intros y I. apply H. right. exact I. Qed.
Lemma concat_one {A} (f : Z -> list A) l id : NoDup l -> In id l -> (forall x, In x l -> x <> id -> f x = []) -> concat (map f l) = f id.
Proof.
  induction l as [|x l IH]; intros N I H; [contradiction|]. inversion N as [|? ? NI N']; subst. cbn [map concat]. destruct (Z.eq_dec x id) as [-> |D].
  - rewrite concat_nil_map; [apply app_nil_r|]. intros y Y. apply H; [right; exact Y|]. intros ->. contradiction.
  - rewrite H by (auto; left; reflexivity). cbn [app]. apply IH; auto; [destruct I; [congruence|assumption]|]. intros y Y. apply H. right. exact Y.
Qed.
Lemma enc_from_app K a : forall pre b, encodings_from K pre (a ++ b) = encodings_from K pre a ++ encodings_from K (pre ++ a) b.
Proof.
  induction a as [|x a IH]; intros pre b; [cbn; rewrite app_nil_r; reflexivity|]. cbn [app encodings_from]. rewrite IH, <- !app_assoc. cbn [app]. reflexivity.
Qed.
Lemma encodings_snoc K h x : encodings K (h ++ [x]) = encodings K h ++ encodings1 K h x.
Proof. unfold encodings. rewrite enc_from_app. cbn [encodings_from app]. rewrite app_nil_r. reflexivity. Qed.

Section Enc.
Variable K : kenv.
Hypothesis EF : env_fine K.
Lemma after_is h c : history K h c -> after K h = c.
Proof. apply after_hist. Qed.
Lemma kind_made h c gf id s : TG K h c gf -> find_stream c id = Some s -> exists ns, sections (submitted (slog K id h)) = ns ++ sections (t_frq (st_t s)) /\ answers (ke_tx K id) ns (snd (gf id)) /\ made c id = length (snd (gf id)).
Proof. intros (T & _) F. destruct (tx_answers _ _ _ _ _ (T _ _ F)) as (ns & A & B & C). exists ns. unfold made. rewrite F. auto. Qed.
Lemma made_closed c id : find_stream c id = None -> made c id = O. Proof. unfold made. intros ->. reflexivity. Qed.
Lemma made_gf h c gf id : TG K h c gf -> made c id = length (snd (gf id)).
Proof.
  intros G. destruct (find_stream c id) as [s|] eqn:F; [destruct (kind_made _ _ _ _ _ G F) as (_ & _ & _ & E); exact E|]. rewrite made_closed by exact F.
  destruct G as (_ & C & _). rewrite C by exact F. reflexivity.
Qed.
(* what the call added to the log of a stream that is still there *)
Lemma slog_grow h c o rv evs c' id : history K h c -> find_stream c' id <> None -> exists more, slog K id (h ++ [mk_call o rv evs c']) = slog K id h ++ more /\ (forall n, o = OWritev n -> submitted more = []).
Proof.
  intros H N. exists (tlog1 K (stype id (h ++ [mk_call o rv evs c'])) id (mk_call o rv evs c')). split.
  - unfold slog. rewrite life_snoc. unfold is_open. cbn [c_post]. destruct (find_stream c' id) as [s|] eqn:F; [|congruence]. rewrite map_app, concat_app. cbn [map concat]. rewrite app_nil_r. f_equal.
    destruct (life id h) as [|x l] eqn:L; [reflexivity|]. unfold stype. rewrite life_snoc. unfold is_open. cbn [c_post]. rewrite F, L. reflexivity.
  - intros n ->. unfold tlog1. cbn [ConnHist.c_op c_evs]. unfold offers_of, submitted. induction evs as [|e evs IH]; [reflexivity|]. cbn [map concat]. rewrite map_app, concat_app. rewrite IH. destruct e; try reflexivity. destruct (_ =? id); reflexivity.
Qed.
Lemma step_tenc c o c' rv evs : wf K c -> op_ok o -> kstep K c o = KOk c' rv evs -> k_tenc c' = k_tenc c \/ (k_tenc c = None /\ (forall n, o <> OWritev n) /\ exists q, k_tenc c' = Some q /\ find_stream c q = None).
Proof.
  intros W O S. destruct (is_bind o) eqn:B.
  - destruct o; try discriminate B; cbn [kstep] in S.
    + left. unfold bind_control in S. destruct (negb _); [discriminate|]. destruct (k_tctl c); [injection S as <- _ _; reflexivity|]. apply lift_ok in S as (S & _). apply obind_ok in S as (c1 & S1 & S). injection S as <-.
      apply open_uni_inv in S1 as (_ & t & _ & _ & TX & _). injection TX as _ T _. exact T.
    + unfold bind_qpack in S. destruct (negb _); [discriminate|]. destruct (k_tenc c) eqn:TE; [injection S as <- _ _; left; exact TE|]. destruct (k_tdec c); [injection S as <- _ _; left; exact TE|].
      right. split; [reflexivity|]. split; [intros n; discriminate|]. apply lift_ok in S as (S & _). apply obind_ok in S as (c1 & S1 & S). apply obind_ok in S as (c2 & S2 & S). injection S as <-.
      apply open_uni_inv in S1 as (F & _). apply open_uni_inv in S2 as (_ & t & _ & _ & TX & _). injection TX as _ T _. cbn [kk_tx k_tenc] in *. exists eid. split; [exact T|exact F].
  - left. pose proof (step_txs _ _ _ _ _ _ W O B S) as T. injection T as _ T _. exact T.
Qed.
Lemma fwd_writev c n c' r : writev_stream K c n = Ok (c', r) -> fwd c c'.
Proof.
  unfold writev_stream. destruct (Nat.eqb n 0); [intros [= <- _]; apply fwd_refl|].
  intros S. apply obind_ok in S as ([c1 o1] & S1 & S). apply fwd_try in S1. destruct o1; [injection S as <- _; exact S1|].
  apply obind_ok in S as (c2 & S2 & S). apply fwd_flush in S2. apply obind_ok in S as ([c3 o3] & S3 & S). apply fwd_try in S3. destruct o3; [injection S as <- _; eauto using fwd_trans|].
  apply obind_ok in S as ([c4 o4] & S4 & S). apply fwd_try in S4. destruct o4; [injection S as <- _; eauto using fwd_trans|].
  apply obind_ok in S as (nx & _ & S). destruct nx as [i|]; [|injection S as <- _; eauto using fwd_trans].
  apply obind_ok in S as ([c5 o5] & S5 & S). apply fwd_cw in S5. destruct (find_stream c5 i); [|discriminate]. apply obind_ok in S as (c6 & S6 & S). injection S as <- _.
  assert (fwd c5 c6) as X. { unfold sched_do in S6. destruct (client_bidi i); [destruct (sc_offered _ _ _); try discriminate S6|]; injection S6 as <-; intros j Hj; exact Hj. }
  eauto 8 using fwd_trans.
Qed.
Lemma fwd_call c n c' rv evs : kstep K c (OWritev n) = KOk c' rv evs -> fwd c c'.
Proof.
  cbn [kstep]. unfold writev_call. destruct (writev_stream K c n) as [[c1 r]| |] eqn:W; try discriminate. apply fwd_writev in W. destruct r as [[[? ?] ?]|]; intros [= <- _ _]; exact W.
Qed.

(* ---- the invariant ---- *)
Definition old_and_first (h : list kcall) (c : conn) : Prop :=
  forall id, find_stream c id <> None -> exists old, of_stream id (encodings K h) = old ++ first_sections K id (made c id) h.
Record EI (h : list kcall) (c : conn) (gf : Z -> gh) : Prop := {
  ei_tg : TG K h c gf;
  ei_bytes : forall q, k_tenc c = Some q -> map (instr_of K) (encodings K h) = fst (gf q);
  ei_none : k_tenc c = None -> encodings K h = [];
  ei_ok : Forall (fun e => client_bidi (fst (fst e)) = true /\ exists p r b, answer_to K e = Ok (p, r, b)) (encodings K h);
  ei_first : old_and_first h c }.
Lemma of_stream_app id a b : of_stream id (a ++ b) = of_stream id a ++ of_stream id b.
Proof. apply filter_app. Qed.
Lemma of_stream_map id j (f : nat -> list ConvModel.nv) l : of_stream id (map (fun k => (j, k, f k)) l) = if j =? id then map (fun k => (j, k, f k)) l else [].
Proof. induction l as [|k l IH]; [destruct (j =? id); reflexivity|]. cbn [map of_stream filter fst]. fold (of_stream id (map (fun k => (j, k, f k)) l)). rewrite IH. destruct (j =? id); reflexivity. Qed.
(* the sections one call has encoded *)
Lemma call_sections h c o c' rv evs gf id es gf' : history K h c -> wf K c -> sending_ok K h -> TG K h c gf -> TG K (h ++ [mk_call o rv evs c']) c' gf' -> kstep K c o = KOk c' rv evs ->
  (forall j, find_stream c' j <> None -> gf' j = ggrow c id es gf j) -> ((forall n, o <> OWritev n) -> es = []) -> (sections (submitted (slog K id h)) = [] -> es = []) ->
  encodings1 K h (mk_call o rv evs c') = map (fun k => (id, k, nth_section K id k h)) (seq (made c id) (length es)) /\
  (es <> [] -> find_stream c id <> None /\ client_bidi id = true) /\ (forall k e, nth_error es k = Some e -> exists p r, answer_to K (id, (made c id + k)%nat, nth_section K id (made c id + k) h) = Ok (p, r, e)) /\
  (forall j, find_stream c' j <> None -> made c' j = (made c j + (if (j =? id)%Z then length es else 0))%nat).
Proof.
  intros H W SO G G' S GR NW NS.
  assert (MD : forall j, find_stream c' j <> None -> made c' j = (made c j + (if (j =? id)%Z then length es else 0))%nat).
  { intros j N. rewrite (made_gf _ _ _ j G'), (made_gf _ _ _ j G), (GR j N). unfold ggrow. cbn [gadd snd]. rewrite app_length. destruct (j =? id); reflexivity. }
  destruct es as [|e0 es0]; [|assert (WE : exists n, o = OWritev n) by (destruct o; eauto; exfalso; discriminate (NW ltac:(discriminate)))]; [|set (es := e0 :: es0) in *].
  - cbn [length seq map]. split; [|split; [congruence|split; [intros [|k] e; discriminate|exact MD]]]. unfold encodings1. cbn [ConnHist.c_op c_post]. destruct o; try reflexivity.
    apply concat_nil_map. intros j J. rewrite (after_is _ _ H) in *. assert (N : find_stream c' j <> None). { apply (fwd_call _ _ _ _ _ S). change (map fst (k_str c)) with (keys c) in J. intros N. apply (not_in_keys c j N J). }
    rewrite (MD j N). replace (if j =? id then length (@nil (list Z)) else 0%nat) with 0%nat by (destruct (j =? id); reflexivity). rewrite Nat.add_0_r, Nat.sub_diag. reflexivity.
  - destruct WE as (n & ->). assert (F : find_stream c id <> None). { intros N. assert (es = []) as X; [|discriminate X]. apply NS. unfold slog. rewrite (life_closed K h c id H N). reflexivity. }
    assert (CB : client_bidi id = true). { destruct (client_bidi id) eqn:E; [reflexivity|]. assert (es = []) as X; [|discriminate X]. apply NS. apply (hist_NHL K h c H SO). exact E. }
    pose proof (fwd_call _ _ _ _ _ S id F) as F'. split; [|split; [auto|split; [|exact MD]]].
    + unfold encodings1. cbn [ConnHist.c_op c_post]. rewrite (after_is _ _ H), (concat_one _ (map fst (k_str c)) id).
      * rewrite (MD id F'), Z.eqb_refl. f_equal. f_equal. lia.
      * exact (wf_nd _ _ W).
      * destruct (find_stream c id) as [s|] eqn:E; [apply (in_keys _ _ _ E)|congruence].
      * intros j J D. assert (N : find_stream c' j <> None). { apply (fwd_call _ _ _ _ _ S). intros N. apply (not_in_keys c j N J). }
        rewrite (MD j N). destruct (Z.eqb_spec j id); [congruence|]. rewrite Nat.add_0_r, Nat.sub_diag. reflexivity.
    + intros k e NE. destruct (find_stream c' id) as [s'|] eqn:E'; [|congruence]. destruct (kind_made _ _ _ _ _ G' E') as (ns & A & (LN & B) & _).
      rewrite (GR id) in B, LN by congruence. unfold ggrow in B, LN. rewrite Z.eqb_refl in B, LN. cbn [gadd snd] in B, LN. rewrite (made_gf _ _ _ id G). set (m := length (snd (gf id))) in *.
      destruct (B (m + k)%nat e) as (nva & p & r & NN & TE). { rewrite nth_error_app2 by (unfold m; lia). replace (m + k - length (snd (gf id)))%nat with k by (unfold m; lia). exact NE. }
      exists p, r. unfold answer_to. cbn [fst snd]. rewrite <- TE. f_equal. unfold nth_section.
      destruct (slog_grow h c (OWritev n) rv evs c' id H ltac:(congruence)) as (more & SG & SM). rewrite SG, submitted_snoc, (SM n eq_refl), app_nil_r in A. rewrite A.
      rewrite app_nth1 by (apply nth_error_Some; congruence). apply nth_error_nth. exact NN.
Qed.
Lemma first_grow h c o rv evs c' gf id : history K h c -> TG K h c gf -> find_stream c' id <> None -> first_sections K id (made c id) (h ++ [mk_call o rv evs c']) = first_sections K id (made c id) h.
Proof.
  intros H G N. unfold first_sections. apply map_ext_in. intros k I. apply in_seq in I. f_equal. unfold nth_section. destruct (slog_grow h c o rv evs c' id H N) as (more & -> & _). rewrite submitted_snoc, sections_app.
  apply app_nth1. destruct (find_stream c id) as [s|] eqn:F; [|rewrite made_closed in I by exact F; lia]. destruct (kind_made _ _ _ _ _ G F) as (ns & -> & (L & _) & E). rewrite app_length, L. lia.
Qed.
Theorem hist_EI h c : history K h c -> sending_ok K h -> exists gf, EI h c gf.
Proof.
  revert h c. apply (hist_inv K (fun h c => sending_ok K h -> exists gf, EI h c gf)).
  { intros _. exists (fun _ => g0). constructor; [apply TG_init|discriminate|reflexivity|constructor|intros id N; cbn in N; congruence]. }
  intros h c o c' rv evs H W O IH S SO. pose proof (sending_prefix _ _ _ SO) as SP. destruct (IH SP) as (gf & [G EB EN EO E1]).
  destruct (TG_step K EF h c o c' rv evs gf H W O SO G S) as (id & es & gf' & G' & GR & NW & NT & NS).
  destruct (call_sections h c o c' rv evs gf id es gf' H W SP G G' S GR NW NS) as (C1 & C2 & C3 & C4).
  assert (INS : map (instr_of K) (encodings1 K h (mk_call o rv evs c')) = es).
  { rewrite C1, map_map. apply nth_ext with (d := []) (d' := []); [rewrite map_length, seq_length; reflexivity|]. intros k L. rewrite map_length, seq_length in L.
    destruct (nth_error es k) as [e|] eqn:NE; [|apply nth_error_None in NE; lia]. destruct (C3 _ _ NE) as (p & r & A).
    rewrite nth_indep with (d' := instr_of K (id, 0%nat, nth_section K id 0 h)) by (rewrite map_length, seq_length; exact L). rewrite (map_nth (fun k => instr_of K (id, k, nth_section K id k h)) _ 0%nat). rewrite seq_nth by exact L.
    unfold instr_of. rewrite A. symmetry. apply nth_error_nth. exact NE. }
  exists gf'. constructor; [exact G'| | | |].
  - intros q TQ. rewrite encodings_snoc, map_app, INS. destruct (step_tenc _ _ _ _ _ W O S) as [T|(T & NWR & q' & T' & F)].
    + rewrite T in TQ. rewrite (EB _ TQ). destruct (wf_tx _ _ (h_wf K _ _ (h_snoc K _ _ _ _ _ _ H O S)) q (or_intror (or_introl (eq_trans T TQ)))) as (_ & s & F & _).
      rewrite GR by congruence. unfold ggrow, is_tenc. rewrite TQ, Z.eqb_refl. reflexivity.
    + assert (q' = q) as -> by congruence. rewrite (EN T), (NW NWR). destruct (find_stream c' q) as [s|] eqn:F'.
      * rewrite GR by congruence. unfold ggrow, is_tenc. rewrite T, (NW NWR). destruct G as (_ & C & _). rewrite C by exact F. destruct (q =? id); reflexivity.
      * destruct G' as (_ & C & _). rewrite C by exact F'. reflexivity.
  - intros T. rewrite encodings_snoc. destruct (step_tenc _ _ _ _ _ W O S) as [T0|(_ & _ & q & T1 & _)]; [|congruence]. rewrite EN by congruence. rewrite C1, NT by congruence. reflexivity.
  - rewrite encodings_snoc. apply Forall_app. split; [exact EO|]. rewrite C1. apply Forall_forall. intros e I. apply in_map_iff in I as (k & <- & I). apply in_seq in I. cbn [fst].
    assert (es <> []) as NE by (intros ->; cbn in I; lia). split; [apply C2; exact NE|]. destruct (nth_error es (k - made c id)) as [b|] eqn:B; [|apply nth_error_None in B; lia].
    destruct (C3 _ _ B) as (p & r & A). replace (made c id + (k - made c id))%nat with k in A by lia. eauto.
  - intros j N. rewrite encodings_snoc, of_stream_app, C1, of_stream_map, (C4 j N). destruct (find_stream c j) as [s|] eqn:F.
    + destruct (E1 j) as (old & ->); [congruence|]. exists old. rewrite <- app_assoc. f_equal. rewrite <- (first_grow h c o rv evs c' gf j H G N). rewrite (Z.eqb_sym id j). destruct (Z.eqb_spec j id) as [-> |D].
      * unfold first_sections at 2. rewrite seq_app, map_app. f_equal. cbn [plus]. apply map_ext_in. intros k I. apply in_seq in I. f_equal.
        destruct (nth_error es (k - made c id)) as [b|] eqn:B; [|apply nth_error_None in B; lia].
        assert (exists s', find_stream c' id = Some s') as (s' & F') by (destruct (find_stream c' id); [eauto|congruence]). destruct (kind_made _ _ _ _ _ G' F') as (ns & A & (LN & _) & M).
        unfold nth_section. destruct (slog_grow h c o rv evs c' id H N) as (more & SG & SM). rewrite SG, submitted_snoc, sections_app. symmetry. apply app_nth1.
        assert (exists n, o = OWritev n) as (n & X) by (destruct o; eauto; exfalso; rewrite NW in I by discriminate; cbn in I; lia).
        rewrite SG, submitted_snoc, (SM n X), app_nil_r in A. rewrite A, app_length, LN, <- M, (C4 id N), Z.eqb_refl. lia.
      * rewrite Nat.add_0_r, app_nil_r. reflexivity.
    + assert (es = [] \/ j <> id) as X. { destruct es as [|e es]; [auto|]. right. intros ->. destruct (C2 ltac:(discriminate)) as [X _]. congruence. }
      exists (of_stream j (encodings K h)). rewrite (made_closed c j F). destruct X as [-> |X].
      * cbn [length seq map]. replace (if j =? id then 0%nat else 0%nat) with 0%nat by (destruct (j =? id); reflexivity). destruct (id =? j); reflexivity.
      * rewrite (Z.eqb_sym id j). destruct (Z.eqb_spec j id); [congruence|]. reflexivity.
Qed.
End Enc.
