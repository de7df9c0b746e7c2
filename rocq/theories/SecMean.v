(* A field section read in pieces while the table grows: how far the bytes read so far determine
   the fields given out. *)
From Verif Require Import Base BaseLemmas QpackIntModel QpackIntSpec QpackIntProofs HuffModel HuffSpec HuffProofs Tables QpackTabModel QpackTabSpec QpackTabProofs
  QpackDynSpec QpackDynProofs Chunk QpackDecModel QpackReadProofs QpackDecProofs QpackSecProofs QpackWireProofs QpackHistModel QpackHistProofs QpackCutProofs
  RfcQpackSpec RfcPrim RfcEnc RfcSec RfcMain Props_QpackTab RfcStreamSpec IdealSec.
Open Scope Z_scope.

(* ---- cutting after a complete item ---- *)
Lemma rfc_cont_cut l : forall v r, rfc_int_cont l = Some (v, r) -> exists h, l = h ++ r /\ forall y, rfc_int_cont (h ++ y) = Some (v, y).
Proof.
  induction l as [|b t IH]; intros v r E; [discriminate|]. cbn [rfc_int_cont] in E. destruct (b <? 128) eqn:Eb.
  - injection E as <- <-. exists [b]. split; [reflexivity|]. intros y. cbn. rewrite Eb. reflexivity.
  - destruct (rfc_int_cont t) as [[v' r']|] eqn:Et; [|discriminate]. injection E as <- <-. destruct (IH _ _ eq_refl) as (h & -> & Hy).
    exists (b :: h). split; [reflexivity|]. intros y. cbn [app rfc_int_cont]. rewrite Eb, Hy. reflexivity.
Qed.
Lemma an_int_cut N l v r : an_int N l v r -> exists b h, l = b :: h ++ r /\ forall y, an_int N (b :: h ++ y) v y.
Proof.
  intros (E & V & L). destruct l as [|b t]; [discriminate|]. unfold rfc_int in E. cbv zeta in E. destruct (_ <? _) eqn:Eb.
  - injection E as <- <-. exists b, []. split; [reflexivity|]. intros y. split; [unfold rfc_int; rewrite Eb; reflexivity|]. split; [auto|]. cbn [app]. rewrite zlen_cons. lia.
  - destruct (rfc_int_cont t) as [[v' r']|] eqn:Et; [|discriminate]. injection E as <- <-. destruct (rfc_cont_cut _ _ _ Et) as (h & -> & Hy).
    exists b, h. split; [reflexivity|]. intros y. split; [unfold rfc_int; rewrite Eb, Hy; reflexivity|]. split; [auto|]. rewrite !zlen_cons, !zlen_app in *. lia.
Qed.
Lemma a_string_cut N m l s r : a_string N m l s r -> exists b h, l = b :: h ++ r /\ forall y, a_string N m (b :: h ++ y) s y.
Proof.
  intros (b & t & raw & -> & A & L & S). destruct (an_int_cut _ _ _ _ A) as (b' & h & E & C). injection E as <- ->. exists b, (h ++ raw). split; [rewrite app_assoc; reflexivity|].
  intros y. exists b, (h ++ raw ++ y), raw. split; [rewrite app_assoc; reflexivity|]. split; [rewrite <- app_assoc; apply C|]. auto.
Qed.
Lemma field_line_cut dyn ric base l q r : field_line dyn ric base l q r -> exists h, l = h ++ r /\ forall y, field_line dyn ric base (h ++ y) q y.
Proof.
  intros (b & t & -> & E).
  assert (One : forall N k, an_int N (b :: t) k r -> exists h, b :: t = (b :: h) ++ r /\ forall y, an_int N ((b :: h) ++ y) k y).
  { intros N k A. destruct (an_int_cut _ _ _ _ A) as (b' & h & E' & C). injection E' as <- ->. exists h. auto. }
  assert (Two : forall N k m v, an_int N (b :: t) k m -> a_value m v r -> exists h, b :: t = (b :: h) ++ r /\ forall y, exists m', an_int N ((b :: h) ++ y) k m' /\ a_value m' v y).
  { intros N k m v A S. destruct (an_int_cut _ _ _ _ A) as (b' & h & E' & C). injection E' as <- ->. destruct (a_string_cut _ _ _ _ _ S) as (b2 & h2 & -> & C2).
    exists (h ++ b2 :: h2). split; [cbn [app]; rewrite <- app_assoc; reflexivity|]. intros y. exists (b2 :: h2 ++ y). split; [|apply C2].
    cbn [app]. rewrite <- app_assoc. apply C. }
  unfold field_line.
  destruct (192 <=? b) eqn:E1.
  { destruct E as (k & f & A & X). destruct (One _ _ A) as (h & El & C). exists (b :: h). split; [exact El|]. intros y. exists b, (h ++ y). split; [reflexivity|]. rewrite E1. exists k, f. split; [apply C|auto]. }
  destruct (128 <=? b) eqn:E2.
  { destruct E as (k & f & A & X). destruct (One _ _ A) as (h & El & C). exists (b :: h). split; [exact El|]. intros y. exists b, (h ++ y). split; [reflexivity|]. rewrite E1, E2. exists k, f. split; [apply C|auto]. }
  destruct (64 <=? b) eqn:E3.
  { destruct E as (k & f & m & v & A & S & X). destruct (Two _ _ _ _ A S) as (h & El & C). exists (b :: h). split; [exact El|]. intros y. exists b, (h ++ y). split; [reflexivity|]. rewrite E1, E2, E3.
    destruct (C y) as (m' & A' & S'). exists k, f, m', v. auto. }
  destruct (32 <=? b) eqn:E4.
  { destruct E as (n & m & v & A & S & X). destruct (a_string_cut _ _ _ _ _ A) as (b' & h & E' & C). injection E' as <- ->. destruct (a_string_cut _ _ _ _ _ S) as (b2 & h2 & -> & C2).
    exists (b :: h ++ b2 :: h2). split; [cbn [app]; rewrite <- app_assoc; reflexivity|]. intros y. exists b, ((h ++ b2 :: h2) ++ y). split; [reflexivity|]. rewrite E1, E2, E3, E4.
    exists n, (b2 :: h2 ++ y), v. split; [cbn [app]; rewrite <- app_assoc; apply C|]. split; [apply C2|auto]. }
  destruct (16 <=? b) eqn:E5.
  { destruct E as (k & f & A & X). destruct (One _ _ A) as (h & El & C). exists (b :: h). split; [exact El|]. intros y. exists b, (h ++ y). split; [reflexivity|]. rewrite E1, E2, E3, E4, E5. exists k, f. split; [apply C|auto]. }
  destruct E as (k & f & m & v & A & S & X). destruct (Two _ _ _ _ A S) as (h & El & C). exists (b :: h). split; [exact El|]. intros y. exists b, (h ++ y). split; [reflexivity|]. rewrite E1, E2, E3, E4, E5.
  destruct (C y) as (m' & A' & S'). exists k, f, m', v. auto.
Qed.
Lemma field_lines_cut dyn ric base l qs r : field_lines dyn ric base l qs r -> forall q1 q2, qs = q1 ++ q2 ->
  exists a b, l = a ++ b /\ field_lines dyn ric base a q1 [].
Proof.
  induction 1 as [l|l q m qs r F _ IH]; intros q1 q2 E.
  - exists [], l. split; [reflexivity|]. destruct q1; [constructor|discriminate].
  - destruct q1 as [|q' q1]; [exists [], l; split; [reflexivity|constructor]|]. injection E as <- E. destruct (IH _ _ E) as (a & b & -> & L).
    destruct (field_line_cut _ _ _ _ _ _ F) as (h & -> & C). exists (h ++ a), b. split; [apply app_assoc|]. econstructor; [apply C|exact L].
Qed.
Lemma section_prefix_cut max n l ric base r : section_prefix max n l ric base r -> exists h, l = h ++ r /\ forall y, section_prefix max n (h ++ y) ric base y.
Proof.
  intros (enc & b & t & de & P & A & R & D & B). destruct (an_int_cut _ _ _ _ A) as (b1 & h1 & -> & C1). destruct (an_int_cut _ _ _ _ D) as (b2 & h2 & E & C2). injection E as <- ->.
  exists (b1 :: h1 ++ b :: h2). split; [cbn [app]; rewrite <- app_assoc; reflexivity|]. intros y. exists enc, b, (h2 ++ y), de.
  split; [auto|]. split; [cbn [app]; rewrite <- app_assoc; apply C1|]. auto.
Qed.

(* ---- the prefix, in two halves ---- *)
Definition base_start (s : sctx) : Prop := rs_inv s /\ s_state s = RsDbaseSign /\ s_sign s = false /\ r_never (s_rs s) = false.
Lemma ric_run c id p : ctx_ok c -> bytes p ->
  let s0 := sctx_init id in
  (exists sc, s_state sc = RsRicnt /\ (forall enc r, ~ an_int 8 p enc r) /\ forall c', ctx_ok c' -> rs_run c' s0 p = ROk sc []) \/
  (exists e s', rs_run c s0 p = RErr e s' []) \/
  (exists enc rest s1, base_start s1 /\ s_id s1 = id /\ an_int 8 p enc rest /\ bytes rest /\
     required (hard_max c) (next_absidx c) enc (s_ricnt s1) /\ rs_run c s0 p = rs_run c s1 rest).
Proof.
  intros CO B s0. pose proof (rs_inv_init id) as I0. fold s0 in I0.
  assert (Hh : 0 <= hard_max c) by (destruct CO as (W & _); pose proof (wf_cap _ W); lia).
  assert (Hn : 0 <= next_absidx c) by (destruct CO as (W & _); pose proof (tab_at_len _ _ _ (wf_tab _ W)); pose proof (zlen_nonneg _ (dtable c)); lia).
  destruct p as [|b0 t0]. { left. exists s0. split; [reflexivity|]. split; [intros enc r A; exact (an_int_nil _ _ _ A)|]. intros c' C'. reflexivity. }
  set (p := b0 :: t0) in *.
  assert (R : forall c', ctx_ok c' -> rs_run c' s0 p = turn (rs_step c') s0 p (run (rs_step c') 8 rs_rank)).
  { intros c' C'. apply (rs_turn c' C'); auto; [discriminate|left; discriminate]. }
  assert (E1 : forall c', rs_step c' s0 p = rs_read_ricnt c' s0 p) by reflexivity.
  pose proof (rs_inv_go c CO s0 p) as IG. pose proof (R c CO) as Rc. unfold turn in R, Rc. rewrite E1 in Rc, IG.
  unfold rs_read_ricnt in Rc, IG. change (r_prefix (s_rs s0)) with 8 in Rc, IG. change (r_left (s_rs s0)) with 0 in Rc, IG. change (r_shift (s_rs s0)) with 0 in Rc, IG.
  pose proof (int_cases 8 p ltac:(lia) B ltac:(discriminate)) as Q. destruct (q_read_varint 8 0 0 p) as [[[[enc sh] rest] [|]]|e|] eqn:EQ; [| | |destruct Q].
  - destruct Q as (A & He & Br & _).
    pose proof (reconstruct_cases c enc CO He) as RC. destruct (reconstruct_ricnt c enc) as [ric|e|] eqn:ER; [| |destruct RC].
    + rewrite rev_nil2 in Rc. specialize (IG _ _ _ _ I0 B ltac:(discriminate) eq_refl).
      right; right. eexists enc, rest, _. split; [split; [exact IG|]; split; [reflexivity|]; split; reflexivity|]. split; [reflexivity|]. split; [exact A|]. split; [exact Br|]. split; [|exact Rc].
      apply required_iff; auto.
    + right; left. unfold rs_fail in Rc. eexists _, _. exact Rc.
  - left. eexists. split; [|split; [exact Q|]].
    2:{ intros c' C'. rewrite (R c' C'), E1. unfold rs_read_ricnt. change (r_prefix (s_rs s0)) with 8. change (r_left (s_rs s0)) with 0. change (r_shift (s_rs s0)) with 0. rewrite EQ. reflexivity. }
    reflexivity.
  - right; left. unfold rs_fail in Rc. eexists _, _. exact Rc.
Qed.
Lemma base_run s1 q : base_start s1 -> bytes q ->
  (exists sc, (s_state sc = RsDbaseSign \/ s_state sc = RsDbase) /\ (forall de r, ~ an_int 7 q de r) /\ forall c, ctx_ok c -> rs_run c s1 q = ROk sc []) \/
  (exists e s', forall c, ctx_ok c -> rs_run c s1 q = RErr e s' []) \/
  (exists b t de r base, q = b :: t /\ an_int 7 q de r /\ bytes r /\ 0 <= base /\ base = (if Z.testbit b 7 then s_ricnt s1 - de - 1 else s_ricnt s1 + de) /\
     exists so sb, s_start so /\ s_id so = s_id s1 /\ s_ricnt so = s_ricnt s1 /\ s_base so = base /\
       rs_inv sb /\ s_state sb = RsBlocked /\ s_id sb = s_id s1 /\ s_ricnt sb = s_ricnt s1 /\ s_base sb = base /\
       forall c, ctx_ok c -> rs_run c s1 q = if s_ricnt s1 <=? next_absidx c then rs_run c so r else RStop sb r []).
Proof.
  intros (I1 & St & Sg0 & Nv) B. destruct q as [|b1 t1].
  { left. exists s1. split; [auto|]. split; [intros de r A; exact (an_int_nil _ _ _ A)|]. intros c CO. reflexivity. }
  set (rest := b1 :: t1) in *.
  assert (R : forall c, ctx_ok c -> rs_run c s1 rest = turn (rs_step c) s1 rest (run (rs_step c) 8 rs_rank)).
  { intros c CO. apply (rs_turn c CO); [exact I1|exact B|discriminate|left; discriminate]. }
  set (s2 := if negb (Z.land b1 128 =? 0) then s_set_sign s1 true else s1).
  assert (E2 : forall c, rs_step c s1 rest = rs_read_dbase c s2 (rs_set_int (rs_set_prefix (s_rs s2) 7) 0 0) rest) by (intros c; unfold rs_step; rewrite St; reflexivity).
  assert (Sg : s_sign s2 = Z.testbit b1 7).
  { unfold s2. pose proof (land_testbit b1 7 ltac:(lia)) as X. change (2 ^ 7) with 128 in X. rewrite X. destruct (Z.testbit b1 7); [reflexivity|exact Sg0]. }
  assert (S2 : s_id s2 = s_id s1 /\ s_ricnt s2 = s_ricnt s1 /\ r_never (s_rs s2) = false /\ 0 <= s_ricnt s2 /\ 0 <= s_base s2).
  { destruct I1 as (P1 & P2 & _). unfold s2; destruct (negb _); cbn; auto. }
  destruct S2 as (S21 & S22 & S23 & S24 & S25). rewrite S22 in S24.
  unfold turn in R.
  assert (R' : forall c, ctx_ok c -> rs_run c s1 rest = match rs_read_dbase c s2 (rs_set_int (rs_set_prefix (s_rs s2) 7) 0 0) rest with
     | SGo s' r b ev => rev_ ev (run (rs_step c) 8 rs_rank s' r b) | SMore s' ev => ROk s' ev | SStop s' r ev => RStop s' r ev | SErr e s' ev => RErr e s' ev | SAbort => RAbort end).
  { intros c CO. rewrite (R c CO), E2. reflexivity. }
  clear R E2. unfold rs_read_dbase in R'.
  cbn [rs_set_int rs_set_prefix r_prefix r_left r_shift] in R'. rewrite Sg, S22 in R'.
  pose proof (int_cases 7 rest ltac:(lia) B ltac:(discriminate)) as Q2. destruct (q_read_varint 7 0 0 rest) as [[[[de sh2] r] [|]]|e|]; [| | |destruct Q2].
  - destruct Q2 as (A2 & Hd & Brr & _). destruct (Z.testbit b1 7 && (s_ricnt s1 <=? de)) eqn:Neg.
    + right; left. unfold rs_fail in R'. eexists _, _. exact R'.
    + cbv zeta in R'. set (base := if Z.testbit b1 7 then s_ricnt s1 - de - 1 else s_ricnt s1 + de) in *.
      assert (Hb : 0 <= base). { unfold base. destruct (Z.testbit b1 7); [|lia]. cbn [andb] in Neg. apply Z.leb_gt in Neg. lia. }
      right; right. exists b1, t1, de, r, base. split; [reflexivity|]. split; [exact A2|]. split; [exact Brr|]. split; [exact Hb|]. split; [reflexivity|].
      set (r7 := rs_set_int (rs_set_prefix (s_rs s2) 7) 0 0) in *.
      exists (s_set (s_set_base s2 base) RsOpcode (rs_set_int r7 0 0)), (s_set (s_set_base s2 base) RsBlocked (rs_set_int r7 de sh2)).
      split. { split; [|split; [reflexivity|exact S23]]. split; [cbn; rewrite S22; exact S24|]. split; [exact Hb|]. cbn. auto. }
      split; [exact S21|]. split; [exact S22|]. split; [reflexivity|].
      split. { split; [cbn; rewrite S22; exact S24|]. split; [exact Hb|exact Logic.I]. }
      split; [reflexivity|]. split; [exact S21|]. split; [exact S22|]. split; [reflexivity|].
      intros c CO. rewrite (R' c CO). change (s_ricnt (s_set_base s2 base)) with (s_ricnt s2). rewrite S22.
      destruct (Z.gtb_spec (s_ricnt s1) (next_absidx c)) as [G|G]; destruct (Z.leb_spec (s_ricnt s1) (next_absidx c)) as [G2|G2]; try lia; [reflexivity|apply rev_nil2].
  - left. eexists. split; [|split; [exact Q2|exact R']]. right. reflexivity.
  - right; left. unfold rs_fail in R'. eexists _, _. exact R'.
Qed.

(* ---- the section read so far ---- *)
Section Rel.
Variables (max n0 id : Z).
Inductive sec_rel (H : list field) : sctx -> list Z -> list qnv -> Prop :=
| sr_ric sc p : bytes p -> s_state sc = RsRicnt -> (forall enc r, ~ an_int 8 p enc r) -> (forall c, ctx_ok c -> rs_run c (sctx_init id) p = ROk sc []) -> sec_rel H sc p []
| sr_base sc p n enc s1 rest : bytes rest -> s_state sc = RsDbaseSign \/ s_state sc = RsDbase -> count_then H n0 n -> base_start s1 -> s_id s1 = id -> an_int 8 p enc rest ->
    required max n enc (s_ricnt s1) -> (forall de r, ~ an_int 7 rest de r) -> (forall c, ctx_ok c -> rs_run c s1 rest = ROk sc []) -> sec_rel H sc p []
| sr_blocked sc p n : rs_inv sc -> s_state sc = RsBlocked -> s_id sc = id -> count_then H n0 n -> section_prefix max n p (s_ricnt sc) (s_base sc) [] -> sec_rel H sc p []
| sr_lines sc p qs n m s1 : bytes m -> s_start s1 -> s_id s1 = id -> count_then H n0 n -> section_prefix max n p (s_ricnt s1) (s_base s1) m -> s_ricnt s1 <= zlen H ->
    line_state sc -> rs_run (ideal H) s1 m = ROk sc qs -> sec_rel H sc p qs.
Lemma sec_rel_init H : sec_rel H (sctx_init id) [] [].
Proof. apply sr_ric; [constructor|reflexivity|intros enc r A; exact (an_int_nil _ _ _ A)|intros c C; reflexivity]. Qed.
Lemma count_then_app H X n : count_then H n0 n -> count_then (H ++ X) n0 n.
Proof. intros (A & B). split; [auto|]. rewrite zlen_app. pose proof (zlen_nonneg _ X). lia. Qed.
Lemma run_II c H s p : below c H -> rs_inv s -> bytes p -> line_state s ->
  match rs_run c s p with
  | ROk s' q => Forall fbytes H -> rs_run (ideal H) s p = ROk s' q /\ line_state s'
  | RStop _ _ _ => False
  | RErr _ _ q => Forall fbytes H -> exists q', emits (rs_run (ideal H) s p) = q ++ q' /\ match rs_run (ideal H) s p with RStop _ _ _ | RAbort => False | _ => True end
  | RAbort => False
  end.
Proof.
  intros B I Bp L. pose proof (be_ok _ _ B) as CO. pose proof (run_I c H B (S (measure 8 rs_rank s p)) s p false I Bp L ltac:(discriminate)) as R.
  fold (run (rs_step c) 8 rs_rank s p false) (run (rs_step (ideal H)) 8 rs_rank s p false) in R. fold (rs_run c s p) (rs_run (ideal H) s p) in R.
  pose proof (run_good (rs_step c) 8 rs_rank rs_inv rs_ce (rs_step_sok c CO) s p false I Bp ltac:(discriminate)) as G. fold (rs_run c s p) in G.
  destruct (rs_run c s p) as [s' q|s' r q|e s' q|]; auto.
  intros F. pose proof (ideal_ok H F) as CI. pose proof (run_good (rs_step (ideal H)) 8 rs_rank rs_inv rs_ce (rs_step_sok _ CI) s p false I Bp ltac:(discriminate)) as G2. fold (rs_run (ideal H) s p) in G2.
  assert (BI : below (ideal H) H) by (rewrite <- (app_nil_r H) at 2; apply below_ideal; auto).
  pose proof (run_I (ideal H) H BI (S (measure 8 rs_rank s p)) s p false I Bp L ltac:(discriminate)) as R2.
  fold (run (rs_step (ideal H)) 8 rs_rank s p false) in R2. fold (rs_run (ideal H) s p) in R2.
  destruct R as [R|(q' & R)]; [rewrite R in G2; destruct G2|]. exists q'. split; [exact R|].
  destruct (rs_run (ideal H) s p); auto.
Qed.
Lemma sec_rel_grow H X sc p qs : Forall fbytes (H ++ X) -> sec_rel H sc p qs -> sec_rel (H ++ X) sc p qs.
Proof.
  intros F R. assert (F1 : Forall fbytes H) by (apply Forall_app in F; apply F). inversion R; subst.
  - eapply sr_ric; eauto.
  - eapply sr_base; eauto using count_then_app.
  - eapply sr_blocked; eauto using count_then_app.
  - eapply sr_lines; eauto using count_then_app; [rewrite zlen_app; pose proof (zlen_nonneg _ X); lia|].
    match goal with S : s_start ?s1, E : rs_run (ideal H) ?s1 ?m = _ |- _ => pose proof (run_II (ideal H) (H ++ X) s1 m (below_ideal _ X F1) (proj1 S)) as Q; rewrite E in Q; apply Q; auto end.
    unfold line_state. match goal with S : s_start _ |- _ => destruct S as (_ & -> & _) end. exact Logic.I.
Qed.
Lemma start_line s : s_start s -> line_state s. Proof. intros (_ & E & _). unfold line_state. rewrite E. exact Logic.I. Qed.

(* what has been given out is the meaning of what has been read *)
Lemma incomplete_nil dyn ric base : incomplete dyn ric base [].
Proof. intros q r (b & t & E & _). discriminate. Qed.
Lemma sec_rel_part H sc p qs : Forall fbytes H -> n0 <= zlen H -> sec_rel H sc p qs -> part_section max H n0 p qs.
Proof.
  intros F L R. inversion R; subst.
  - apply ps_prefix with (n := zlen H); [split; lia|]. intros ric base m (enc & b & t & de & _ & A & _). eapply H2; eauto.
  - apply ps_prefix with (n := n); [auto|]. intros ric base m (enc' & b & t & de & _ & A & _ & A2 & _). destruct (an_int_fun _ _ _ _ _ _ H5 A) as (_ & E). eapply H7. rewrite E. exact A2.
  - eapply ps_lines with (m := []); eauto; [congruence|constructor|apply incomplete_nil].
  - pose proof (lines_run (ideal H) (numbered H) (ideal_smatch H F) m s1 H1) as Q. change (next_absidx (ideal H)) with (zlen H) in Q. specialize (Q H5 H0). rewrite H7 in Q.
    destruct Q as (l & FL & X). eapply ps_lines; eauto. destruct X as [(-> & _)|(_ & _ & I)]; [apply incomplete_nil|exact I].
Qed.
Lemma sec_rel_whole H sc p qs : Forall fbytes H -> sec_rel H sc p qs -> s_state sc = RsOpcode -> whole_section max H n0 p qs.
Proof.
  intros F R E. inversion R; subst; try congruence.
  - destruct H1; congruence.
  - pose proof (lines_run (ideal H) (numbered H) (ideal_smatch H F) m s1 H1) as Q. change (next_absidx (ideal H)) with (zlen H) in Q. specialize (Q H5 H0). rewrite H7 in Q.
    destruct Q as (l & FL & [(-> & _)|(_ & X & _)]); [|congruence]. exists n, (s_ricnt s1), (s_base s1), m. auto.
Qed.
(* any number of the fields belongs to a beginning of what has been read *)
Lemma part_section_cut H p qs q1 q2 : n0 <= zlen H -> part_section max H n0 p qs -> qs = q1 ++ q2 -> exists a b, p = a ++ b /\ part_section max H n0 a q1.
Proof.
  intros L R E. destruct q1 as [|q q1].
  { exists [], p. split; [reflexivity|]. apply ps_prefix with (n := zlen H); [split; lia|]. intros ric base m (enc & b & t & de & _ & A & _). exact (an_int_nil _ _ _ A). }
  destruct R as [n|n ric base m qs r C P M F I]; [discriminate|]. destruct (field_lines_cut _ _ _ _ _ _ F _ _ E) as (a & b & -> & FA).
  destruct (section_prefix_cut _ _ _ _ _ _ P) as (h & -> & CP). exists (h ++ a), b. split; [apply app_assoc|].
  eapply ps_lines with (r := []); [exact C|apply CP| |exact FA|apply incomplete_nil].
  intros _. apply M. assert (a <> []) by (intros ->; inversion FA; match goal with X : field_line _ _ _ [] _ _ |- _ => destruct X as (? & ? & ? & _); discriminate end).
  destruct a; [congruence|discriminate].
Qed.

(* ---- the next piece ---- *)
Definition advanced (H : list field) (p x : list Z) (qs : list qnv) (r : rres sctx qnv) : Prop :=
  match r with
  | ROk sc q => sec_rel H sc (p ++ x) (qs ++ q)
  | RStop sc rest q => q = [] /\ qs = [] /\ zlen H < s_ricnt sc /\ exists y, x = y ++ rest /\ sec_rel H sc (p ++ y) qs
  | RErr _ _ q => exists a b, p ++ x = a ++ b /\ part_section max H n0 a (qs ++ q)
  | RAbort => False
  end.
Section Adv.
Variables (c : ctx) (H : list field).
Hypothesis (B : below c H) (F : Forall fbytes H) (N : next_absidx c = zlen H) (M : hard_max c = max) (N0 : n0 <= zlen H).
Let CO := be_ok c H B.
Lemma empty_part (a : list Z) : exists b, a = [] ++ b /\ part_section max H n0 [] [].
Proof.
  exists a. split; [reflexivity|]. apply ps_prefix with (n := zlen H); [split; lia|]. intros ric base m (enc & b & t & de & _ & A & _). exact (an_int_nil _ _ _ A).
Qed.
Lemma adv_lines s1 sc p m qs n x : bytes m -> bytes x -> s_start s1 -> s_id s1 = id -> count_then H n0 n -> section_prefix max n p (s_ricnt s1) (s_base s1) m -> s_ricnt s1 <= zlen H ->
  rs_inv sc -> line_state sc -> rs_run (ideal H) s1 m = ROk sc qs -> advanced H p x qs (rs_run c sc x).
Proof.
  intros Bm Bx S1 Id C P L Is Ls R. pose proof (run_II c H sc x B Is Bx Ls) as Q. pose proof (ideal_ok H F) as CI.
  assert (Bmx : bytes (m ++ x)) by (apply bytes_app; auto).
  assert (RA : rs_run (ideal H) s1 (m ++ x) = rev_ qs (rs_run (ideal H) sc x)) by (rewrite rs_run_app; auto; [rewrite R; reflexivity|apply S1]).
  unfold advanced. destruct (rs_run c sc x) as [s' q|s' r q|e s' q|]; [|destruct Q| |destruct Q].
  - destruct (Q F) as (E & L'). eapply sr_lines; [exact Bmx|exact S1|exact Id|exact C|apply section_prefix_app; exact P|exact L|exact L'|]. rewrite RA, E. reflexivity.
  - destruct (Q F) as (q' & E & X).
    pose proof (lines_run (ideal H) (numbered H) (ideal_smatch H F) (m ++ x) s1 S1) as LR. change (next_absidx (ideal H)) with (zlen H) in LR. specialize (LR L Bmx). rewrite RA in LR.
    assert (FL : exists l, field_lines (numbered H) (s_ricnt s1) (s_base s1) (m ++ x) (qs ++ q ++ q') l).
    { destruct (rs_run (ideal H) sc x); try destruct X; cbn [rev_ emits] in *; destruct LR as (l & FL & _); rewrite <- E; eauto. }
    destruct FL as (l & FL). destruct (field_lines_cut _ _ _ _ _ _ FL (qs ++ q) q' ltac:(rewrite app_assoc; reflexivity)) as (a & b & Ea & FA).
    destruct (section_prefix_cut _ _ _ _ _ _ P) as (h & -> & CP). exists (h ++ a), b. split; [rewrite <- !app_assoc, Ea; reflexivity|].
    eapply ps_lines; [exact C|apply CP|intros _; exact L|exact FA|apply incomplete_nil].
Qed.
Lemma adv_prefix so p n x : bytes x -> s_start so -> s_id so = id -> count_then H n0 n -> section_prefix max n p (s_ricnt so) (s_base so) [] -> s_ricnt so <= zlen H ->
  advanced H p x [] (rs_run c so x).
Proof.
  intros Bx S Id C P L. eapply adv_lines with (m := []); eauto; [constructor|apply S|apply start_line; auto].
Qed.
Lemma adv_base s1 p x rest enc n : base_start s1 -> s_id s1 = id -> an_int 8 p enc rest -> bytes rest -> bytes x -> count_then H n0 n -> required max n enc (s_ricnt s1) ->
  (forall de r, ~ an_int 7 rest de r) ->
  advanced H p x [] (rs_run c s1 (rest ++ x)).
Proof.
  intros S1 Id A Br Bx C Rq No. assert (Bq : bytes (rest ++ x)) by (apply bytes_app; auto). assert (A' : an_int 8 (p ++ x) enc (rest ++ x)) by (apply an_int_app; auto).
  destruct (base_run s1 (rest ++ x) S1 Bq) as [(sc & St & No' & R)|[(e & s' & R)|(b & t & de & r & base & Eq & A2 & Brr & Hb & Eb & so & sb & So & I1 & I2 & I3 & Sb1 & Sb2 & Sb3 & Sb4 & Sb5 & R)]].
  - rewrite (R c CO). cbn [advanced app]. eapply sr_base; eauto.
  - rewrite (R c CO). destruct (empty_part (p ++ x)) as (b & E & P). exists [], b. auto.
  - rewrite (R c CO). assert (SP : section_prefix max n (p ++ x) (s_ricnt s1) base r).
    { exists enc, b, t, de. split; [apply S1|]. rewrite <- Eq. auto. }
    destruct (an_int_suffix _ _ _ _ A2) as (g & Eg).
    (* the prefix ends inside x *)
    assert (Ex : exists y, x = y ++ r /\ p ++ x = (p ++ y) ++ r /\ section_prefix max n (p ++ y) (s_ricnt s1) base []).
    { destruct (section_prefix_cut _ _ _ _ _ _ SP) as (h & Eh & CP).
      assert (Hl : exists y, x = y ++ r).
      { destruct (an_int_cut _ _ _ _ A2) as (b2 & h2 & E2 & C2). destruct (Nat.le_gt_cases (length rest) (length (b2 :: h2))) as [Le|Gt].
        - change (b2 :: h2 ++ r) with ((b2 :: h2) ++ r) in E2. apply app_eq_app in E2. destruct E2 as (y & [(E3 & E4)|(E3 & E4)]).
          + exists y. assert (y = []). { apply (f_equal (@length Z)) in E3. rewrite app_length in E3. destruct y; [auto|cbn in *; lia]. } subst y. rewrite app_nil_l in *. auto.
          + exists y. auto.
        - exfalso. change (b2 :: h2 ++ r) with ((b2 :: h2) ++ r) in E2. apply app_eq_app in E2. destruct E2 as (y & [(E3 & E4)|(E3 & E4)]).
          + apply (No de y). rewrite E3. apply C2.
          + apply (f_equal (@length Z)) in E3. rewrite app_length in E3. lia. }
      destruct Hl as (y & Ey). exists y. split; [exact Ey|]. split; [rewrite Ey, app_assoc; reflexivity|].
      assert (h = p ++ y). { apply (app_inv_tail r). rewrite <- Eh, Ey, app_assoc. reflexivity. } subst h. rewrite <- (app_nil_r (p ++ y)). apply CP. }
    destruct Ex as (y & Ey & Epx & SPy). assert (By : bytes r) by auto.
    destruct (Z.leb_spec (s_ricnt s1) (next_absidx c)) as [Le|Gt].
    + pose proof (adv_prefix so (p ++ y) n r By So ltac:(congruence) C ltac:(rewrite I2, I3; exact SPy) ltac:(rewrite I2; lia)) as AP.
      unfold advanced in *. rewrite Epx. destruct (rs_run c so r); auto. destruct AP as (-> & Q0 & Lt & z & -> & SR). split; [auto|]. split; [auto|]. split; [auto|]. exists (y ++ z). split; [rewrite Ey, app_assoc; reflexivity|]. rewrite app_assoc. exact SR.
    + cbn [advanced]. split; [reflexivity|]. split; [reflexivity|]. split; [rewrite Sb4; lia|]. exists y. split; [exact Ey|]. eapply sr_blocked; eauto; [congruence|]. rewrite Sb4, Sb5. exact SPy.
Qed.
Theorem sec_rel_run sc p qs x : rs_inv sc -> bytes x -> sec_rel H sc p qs -> advanced H p x qs (rs_run c sc x).
Proof.
  intros Is Bx R. inversion R; subst.
  - (* encoded Required Insert Count *)
    match goal with X : forall c, ctx_ok c -> rs_run c _ p = _ |- _ => pose proof (X c CO) as R0 end.
    assert (Bpx : bytes (p ++ x)) by (apply bytes_app; auto).
    assert (RA : rs_run c (sctx_init id) (p ++ x) = rs_run c sc x) by (rewrite rs_run_app; auto using rs_inv_init; rewrite R0; apply rev_nil2).
    destruct (ric_run c id (p ++ x) CO Bpx) as [(sc' & St & No & R')|[(e & s' & R')|(enc & rest & s1 & S1 & Id & A & Br & Rq & R')]].
    + rewrite <- RA, (R' c CO). cbn [advanced app]. apply sr_ric; auto.
    + rewrite <- RA, R'. destruct (empty_part (p ++ x)) as (b & E & P). exists [], b. auto.
    + rewrite <- RA, R'. rewrite M, N in Rq.
      (* cut where the count ends *)
      assert (Ex : exists y, x = y ++ rest /\ an_int 8 (p ++ y) enc []).
      { destruct (an_int_cut _ _ _ _ A) as (b2 & h2 & E2 & C2). change (b2 :: h2 ++ rest) with ((b2 :: h2) ++ rest) in E2. apply app_eq_app in E2. destruct E2 as (y & [(E3 & E4)|(E3 & E4)]).
        - exfalso. apply (H2 enc y). rewrite E3. apply C2.
        - exists y. split; [exact E4|]. rewrite <- E3. rewrite <- (app_nil_r (b2 :: h2)). apply C2. }
      destruct Ex as (y & Ey & Ay).
      pose proof (adv_base s1 (p ++ y) rest [] enc (zlen H) S1 Id Ay ltac:(constructor) Br ltac:(split; lia) Rq ltac:(intros de r Q; exact (an_int_nil _ _ _ Q))) as AB.
      rewrite app_nil_l in AB. unfold advanced in *. assert (Epx : p ++ x = (p ++ y) ++ rest) by (rewrite Ey, app_assoc; reflexivity). rewrite Epx.
      destruct (rs_run c s1 rest); auto. destruct AB as (-> & Q0 & Lt & z & -> & SR). split; [auto|]. split; [auto|]. split; [auto|]. exists (y ++ z). split; [rewrite Ey, app_assoc; reflexivity|]. rewrite app_assoc. exact SR.
  - match goal with X : forall c, ctx_ok c -> rs_run c s1 rest = _ |- _ => pose proof (X c CO) as R0 end.
    assert (RA : rs_run c s1 (rest ++ x) = rs_run c sc x).
    { rewrite rs_run_app; auto; [rewrite R0; apply rev_nil2|]. match goal with S : base_start s1 |- _ => apply S end. }
    rewrite <- RA. eapply adv_base; eauto.
  - destruct x as [|b0 t0].
    { unfold rs_run. rewrite run_nil. cbn [advanced]. rewrite app_nil_r. exact R. }
    destruct (Z.leb_spec (s_ricnt sc) (next_absidx c)) as [Le|Gt].
    + destruct (rs_unblock c sc (b0 :: t0) CO Is H1 Le Bx ltac:(discriminate)) as (s' & S' & I1 & I2 & I3 & ->).
      eapply adv_prefix; eauto; [congruence|rewrite I2, I3; auto|lia].
    + assert (E : rs_run c sc (b0 :: t0) = RStop sc (b0 :: t0) []).
      { unfold rs_run. rewrite (rs_turn c CO) by (auto; first [discriminate|left; discriminate]). unfold turn, rs_step. rewrite H1. rewrite (proj2 (Z.gtb_lt _ _)) by lia. reflexivity. }
      rewrite E. cbn [advanced]. split; [reflexivity|]. split; [reflexivity|]. split; [lia|]. exists []. split; [reflexivity|]. rewrite app_nil_r. exact R.
  - eapply adv_lines; eauto.
Qed.
End Adv.
End Rel.
