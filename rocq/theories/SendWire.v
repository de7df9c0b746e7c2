(* The bytes of a stream, from its log *)
From Verif Require Import Base BaseLemmas ConvModel ConvSpec TxModel TxSpec TxProofs TxRefine TxFill TxTrace ConnModel ConnHist SendSpec ConnTx.
Open Scope Z_scope.

Definition rest_of (open : bool) (pend : list TxModel.frame) : list TxModel.frame := if open then tl pend else pend.
Definition spelled (E : txenv) (w0 : list Z) (subm : list TxModel.frame) (a : ast) : Prop :=
  exists l open fs w1, says E l open (a_enc a) (a_rd a) (map fst fs) /\ untag (a_wire a) = w0 ++ w1 /\ frames_of w1 fs /\
    subm = l ++ rest_of open (a_pend a) /\ (open = true -> exists p, a_pend a = TxModel.FData :: p).
Lemma untag_app a b : untag (a ++ b) = untag a ++ untag b. Proof. apply map_app. Qed.
Lemma untag_tag b l : untag (tag b l) = l. Proof. unfold untag, tag. rewrite map_map. cbn. apply map_id. Qed.
Lemma map_fst_snoc {A B} (fs : list (A * B)) x : map fst (fs ++ [x]) = map fst fs ++ [fst x]. Proof. rewrite map_app. reflexivity. Qed.
Lemma open_up E w0 subm p w en bl k j : spelled E w0 subm (mk_a (TxModel.FData :: p) w en bl k j) ->
  exists l fs w1, says E l true k j (map fst fs) /\ untag w = w0 ++ w1 /\ frames_of w1 fs /\ subm = l ++ p.
Proof.
  intros (l & open & fs & w1 & S & U & F & -> & O). cbn [a_enc a_rd a_wire a_pend] in *. destruct open.
  - exists l, fs, w1. auto.
  - exists (l ++ [TxModel.FData]), fs, w1. split; [apply sy_data; auto|]. split; [auto|]. split; [auto|]. rewrite <- app_assoc. reflexivity.
Qed.
Lemma spell_one E w0 l fs w1 ty p f (pend : list TxModel.frame) w en bl k j b : says E l false k j (map fst fs ++ [(ty, p)]) -> untag w = w0 ++ w1 -> frames_of w1 fs -> framed ty p f -> 
  spelled E w0 (l ++ pend) (mk_a pend (w ++ tag b f) en bl k j).
Proof.
  intros S U F G. exists l, false, (fs ++ [(ty, p, f)]), (w1 ++ f). cbn [a_enc a_rd a_wire a_pend rest_of]. split; [rewrite map_fst_snoc; exact S|].
  split; [rewrite untag_app, untag_tag, U, app_assoc; reflexivity|]. split; [apply frames_snoc; auto|]. split; [reflexivity|discriminate].
Qed.
Lemma emit_spell E w0 subm a es b : emit E a es b -> spelled E w0 subm a -> spelled E w0 subm b.
Proof.
  intros H S. destruct H.
  1-4: destruct S as (l & open & fl & w1 & S & U & F & -> & O); cbn [a_enc a_rd a_wire a_pend] in *; destruct open; [destruct (O eq_refl) as (p1 & P); discriminate P|]; cbn [rest_of].
  - replace (l ++ FSettings s :: fs) with ((l ++ [FSettings s]) ++ fs) by (rewrite <- app_assoc; reflexivity). eapply spell_one; eauto. apply sy_settings; auto.
  - replace (l ++ FGoaway id :: fs) with ((l ++ [FGoaway id]) ++ fs) by (rewrite <- app_assoc; reflexivity). eapply spell_one; eauto. apply sy_goaway; auto.
  - replace (l ++ FPrio id data :: fs) with ((l ++ [FPrio id data]) ++ fs) by (rewrite <- app_assoc; reflexivity). eapply spell_one; eauto. apply sy_prio; auto.
  - replace (l ++ TxModel.FHeaders nva :: fs) with ((l ++ [TxModel.FHeaders nva]) ++ fs) by (rewrite <- app_assoc; reflexivity). eapply spell_one; eauto. eapply sy_headers; eauto.
  - apply open_up in S as (l & fl & w1 & S & U & F & ->). exists l, (negb eof), (fl ++ [(0, concat vecs, hd ++ concat vecs)]), (w1 ++ hd ++ concat vecs).
    cbn [a_enc a_rd a_wire a_pend]. split; [rewrite map_fst_snoc; cbn [fst]; eapply sy_piece; eauto|].
    split; [rewrite !untag_app, !untag_tag, U, <- !app_assoc; reflexivity|]. split; [apply frames_snoc; auto|]. destruct eof; cbn [negb rest_of tl]; split; eauto. discriminate.
  - apply open_up in S as (l & fl & w1 & S & U & F & ->). exists l, false, fl, w1. cbn [a_enc a_rd a_wire a_pend rest_of]. split; [eapply sy_eof; eauto|]. split; [auto|]. split; [auto|]. split; [auto|discriminate].
  - apply open_up in S as (l & fl & w1 & S & U & F & ->). exists l, true, fl, w1. cbn [a_enc a_rd a_wire a_pend rest_of]. split; [eapply sy_wait; eauto|]. split; [auto|]. split; [auto|]. split; eauto.
Qed.
Lemma emits_spell E w0 subm a es b : emits E a es b -> spelled E w0 subm a -> spelled E w0 subm b.
Proof. induction 1; auto. intros S. apply IHemits. eapply emit_spell; eauto. Qed.
Lemma submitted_app a b : submitted (a ++ b) = submitted a ++ submitted b. Proof. unfold submitted. rewrite map_app, concat_app. reflexivity. Qed.
Lemma call_spell E L w0 subm a o r b : call E L a o r b -> raw o = false -> spelled E w0 subm a -> spelled E w0 (subm ++ submitted (tv1 (o, r))) b.
Proof.
  assert (Z0 : forall a, subm ++ submitted [] = subm ++ a -> True) by auto. clear Z0.
  intros H R S. destruct H; try discriminate; cbn [tv1]; cbn [submitted map concat app]; rewrite ?app_nil_r; auto.
  - destruct S as (l & open & fs & w1 & S & U & F & -> & O). exists l, open, fs, w1. cbn [a_enc a_rd a_wire a_pend] in *. split; [auto|]. split; [auto|]. split; [auto|]. split.
    + rewrite <- app_assoc. f_equal. destruct open; cbn [rest_of]; [|reflexivity]. destruct (O eq_refl) as (q & ->). reflexivity.
    + intros Ho. destruct (O Ho) as (q & ->). exists (q ++ frs). reflexivity.
  - destruct (a_blk a); [destruct H as [_ ->]; auto|]. eapply emits_spell; eauto.
  - destruct (a_blk a); [destruct H as [_ ->]; auto|]. eapply emits_spell; eauto.
Qed.
Lemma calls_spell E w0 L a tr b : calls E L a tr b -> Forall (fun x => raw (fst x) = false) tr -> forall subm, spelled E w0 subm a -> spelled E w0 (subm ++ submitted (tvis tr)) b.
Proof.
  induction 1; intros F subm S; [cbn; rewrite app_nil_r; auto|]. inversion F; subst. change (tvis ((o, r) :: tr)) with (tv1 (o, r) ++ tvis tr). rewrite submitted_app, app_assoc. apply IHcalls; auto. eapply call_spell; eauto.
Qed.
Lemma plain_raw ty tr : (ty = None \/ ty = Some 0) -> Forall (fun x : op * res => fits ty (fst x) = true) tr -> Forall (fun x => raw (fst x) = false) tr.
Proof. intros T F. eapply Forall_impl; [|exact F]. intros x H. cbn beta in *. destruct T as [-> | ->]; cbn in H; destruct (raw (fst x)); auto; discriminate. Qed.
Theorem shaped_spell E ty tr a : (ty = None \/ ty = Some 0) -> calls E led0 a0 tr a -> shaped ty tr -> spelled E (preamble ty) (submitted (tvis tr)) a.
Proof.
  intros T C S. assert (forall w0, spelled E w0 [] (mk_a [] (tag false w0) false false 0 0)) as I0.
  { intros w0. exists [], false, [], []. cbn. split; [constructor|]. split; [rewrite untag_tag, app_nil_r; auto|]. split; [split; [auto|constructor]|]. split; [auto|discriminate]. }
  destruct T as [-> | ->]; cbn [shaped preamble] in *.
  - apply (calls_spell E [] led0 a0 tr a C (plain_raw None tr ltac:(auto) S) []). apply (I0 []).
  - destruct S as (tr' & -> & F). inversion C as [|? ? ? ? ? ? ? H3 H5]; subst. change (tvis ((ORaw [0], RNone) :: tr')) with (tvis tr').
    assert (b = mk_a [] (tag false [0]) false false 0 0) as -> by (inversion H3; reflexivity).
    apply (calls_spell E [0] _ _ tr' a H5 (plain_raw (Some 0) tr' ltac:(auto) F) []). apply I0.
Qed.
(* the first byte of the other streams *)
Lemma shaped_first E n tr a : calls E led0 a0 tr a -> shaped (Some n) tr -> exists w, untag (a_wire a) = n :: w.
Proof.
  intros C (tr' & -> & _). inversion C as [|? ? ? ? ? ? ? H3 H5]; subst. assert (b = mk_a [] (tag false [n]) false false 0 0) as -> by (inversion H3; reflexivity).
  destruct (calls_prefix _ _ _ _ _ H5) as (x & ->). cbn. eauto.
Qed.

(* from the log to the trace *)
Lemma tvis_split tr : forall pre e post, tvis tr = pre ++ e :: post -> exists tr1 x tr2, tr = tr1 ++ x :: tr2 /\ tvis tr1 = pre /\ tv1 x = [e] /\ tvis tr2 = post.
Proof.
  induction tr as [|y tr IH]; intros pre e post H; [destruct pre; discriminate|]. change (tvis (y :: tr)) with (tv1 y ++ tvis tr) in H.
  assert (tv1 y = [] \/ exists e0, tv1 y = [e0]) as [T|(e0 & T)].
  { destruct y as [[] []]; cbn; eauto. }
  - rewrite T in H. destruct (IH _ _ _ H) as (tr1 & x & tr2 & -> & A & B & D). exists (y :: tr1), x, tr2. split; [reflexivity|]. split; [|auto]. change (tv1 y ++ tvis tr1 = pre). rewrite T. exact A.
  - rewrite T in H. destruct pre as [|e1 pre].
    + injection H as <- <-. exists [], y, tr. auto.
    + injection H as <- H. destruct (IH _ _ _ H) as (tr1 & x & tr2 & -> & A & B & D). exists (y :: tr1), x, tr2. split; [reflexivity|]. split; [|auto]. change (tv1 y ++ tvis tr1 = e0 :: pre). rewrite T, A. reflexivity.
Qed.
Lemma tv1_offer x vs fin : tv1 x = [TOffer vs fin] -> exists n es, x = (OWrite n, ROffer vs fin es).
Proof. destruct x as [[] []]; cbn; try discriminate. intros [= <- <-]. eauto. Qed.
Lemma calls_reported E tr : forall L a b, calls E L a tr b -> 0 <= l_acked L <= zlen (a_wire a) -> (forall pre o r post, tr = pre ++ (o, r) :: post -> TxSpec.op_ok (led_after L pre) o) ->
  l_acked L <= l_sent L -> l_sent L <= l_hi L -> l_hi L <= zlen (a_wire a) ->
  reported tr + app_bytes (upto (l_acked L) (a_wire a)) = app_bytes (upto (l_acked (led_after L tr)) (a_wire b)).
Proof.
  induction tr as [|[o r] tr IH]; intros L a b C A LW S1 S2 S3; [inversion C; subst; cbn; lia|]. inversion C as [|? ? ? ? b0 ? ? H3 H5]; subst. rewrite reported_cons.
  pose proof (call_reported _ _ _ _ _ _ H3 A) as CR. destruct (call_prefix _ _ _ _ _ _ H3) as (x & PX).
  assert (zlen (a_wire b0) = zlen (a_wire a) + zlen x) as ZL by (rewrite PX, zlen_app; lia). pose proof (zlen_nonneg _ x).
  pose proof (LW [] o r tr eq_refl) as O. cbn [led_after fold_left] in O.
  assert (0 <= l_acked (led_step L o r) <= l_sent (led_step L o r) /\ l_sent (led_step L o r) <= l_hi (led_step L o r) /\ l_hi (led_step L o r) <= zlen (a_wire b0)) as (G1 & G2 & G3).
  { destruct H3; cbn [led_step l_acked l_sent l_hi TxSpec.op_ok] in *; try lia.
    match goal with Q : untag (from (l_sent L) ?w) = concat vs ++ more |- _ => assert (zlen (untag (from (l_sent L) w)) = zlen (concat vs) + zlen more) as ZF by (rewrite Q, zlen_app; reflexivity) end.
    unfold untag, from in ZF. unfold zlen in ZF at 1. rewrite map_length, skipn_length in ZF. unfold zlen in *. lia. }
  assert (reported tr + app_bytes (upto (l_acked (led_step L o r)) (a_wire b0)) = app_bytes (upto (l_acked (led_after (led_step L o r) tr)) (a_wire b))) as IH1.
  { apply (IH (led_step L o r) b0 b); auto; try lia. intros pre o' r' post E'. apply (LW ((o, r) :: pre) o' r' post). rewrite E'. reflexivity. }
  change (led_after L ((o, r) :: tr)) with (led_after (led_step L o r) tr). lia.
Qed.
Lemma sum_from l : forall z, fold_right Z.add z l = fold_right Z.add 0 l + z. Proof. induction l; cbn; intros; [lia|]. rewrite IHl. lia. Qed.
Lemma treported_app a b : treported (a ++ b) = treported a + treported b.
Proof. unfold treported, tsum. rewrite map_app, fold_right_app, sum_from. lia. Qed.
Lemma reported_tvis E tr : forall L a b, calls E L a tr b -> reported tr = treported (tvis tr).
Proof.
  induction tr as [|[o r] tr IH]; intros L a b C; [reflexivity|]. inversion C as [|? ? ? ? b0 ? ? H3 H5]; subst. rewrite reported_cons, (IH _ _ _ H5). change (tvis ((o, r) :: tr)) with (tv1 (o, r) ++ tvis tr). rewrite treported_app. f_equal.
  destruct H3; cbn; unfold tsum; try reflexivity; lia.
Qed.
