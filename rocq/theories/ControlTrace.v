(* The reader of the code against the repaired variant; traces *)
From Verif Require Import Base BaseLemmas ConvModel ConvProofs RdVarint HttpModel Chunk Chunk2 ControlModel ControlSpec ControlProofs.
Open Scope Z_scope.

Definition fits (s : cst) : Prop := c_rd s = CPrio -> zlen (c_buf s) + c_left s <= 8.
Lemma step_real E s p : c_inv E s -> fits s ->
  c_step false E s p = c_step true E s p \/
  (c_step false E s p = SAbort /\ exists v l, c_step true E s p = SGo (c_go s CPrio rv_reset l v) [] false [CvElem v l] /\ c_buf s = []).
Proof.
  intros I F. unfold c_step. destruct (c_rd s) eqn:R; auto.
  - destruct (fr_varint (c_rv s) (c_left s) p) as [rv' l'|v l' rest| |]; auto. destruct (Z.eqb_spec l' 0) as [|N]; auto. cbn [negb andb].
    destruct (Z.eqb_spec (zlen rest) 0) as [Q|]; auto. right. split; auto. apply zlen_0 in Q. subst rest. exists v, l'.
    destruct I as (_ & _ & _ & _ & I). rewrite R in I. split; [reflexivity|tauto].
  - left. unfold c_prio, pri_bufsize. destruct I as (_ & _ & _ & _ & I). rewrite R in I. specialize (F R).
    pose proof (zlen_nonneg _ (c_buf s)). destruct (Z.leb_spec (Z.min (c_left s) (zlen p)) 0); auto.
    destruct (Z.ltb_spec 8 (Z.min (c_left s) (zlen p))); [lia|]. destruct (Z.ltb_spec 8 (Z.min (c_left s) (zlen p) + zlen (c_buf s))); [lia|]. reflexivity.
Qed.
Lemma step_fits E s p s' rest b ev : c_inv E s -> fits s -> c_step true E s p = SGo s' rest b ev -> no_long_value ev -> fits s'.
Proof.
  intros I F ST NL H. unfold fits in F.
  assert (T : forall s0, c_rd (c_reset s0) = CPrio -> False) by (intros; discriminate).
  revert ST. unfold c_step. destruct (c_rd s) eqn:R.
  - destruct (rd_varint _ _ _); intros [= <- _ _ _]. discriminate.
  - destruct (rd_varint _ _ _); try discriminate. unfold c_frame_start, c_fail.
    repeat match goal with |- context [if ?c then _ else _] => destruct c end; intros [= <- _ _ _]; discriminate.
  - destruct (fr_varint _ _ _); try discriminate. destruct (_ =? 0); intros [= <- _ _ _]. discriminate.
  - destruct (fr_varint _ _ _); try discriminate. destruct (settings_entry _ _ _ _) as [[r e]| |]; try discriminate. destruct (_ =? 0); intros [= <- _ _ _]; discriminate.
  - destruct (fr_varint _ _ _); try discriminate. unfold c_fail. repeat match goal with |- context [if ?c then _ else _] => destruct c end; intros [= <- _ _ _]; discriminate.
  - destruct (fr_varint _ _ _); try discriminate. unfold c_fail. repeat match goal with |- context [if ?c then _ else _] => destruct c end; intros [= <- _ _ _]; discriminate.
  - destruct (fr_varint _ _ _) as [|v l r| |]; try discriminate. destruct (_ =? 0).
    + unfold c_fail. repeat match goal with |- context [if ?c then _ else _] => destruct c end; intros [= <- _ _ _]; discriminate.
    + cbn [negb andb]. intros [= <- _ _ <-]. destruct I as (_ & _ & _ & _ & I). rewrite R in I. destruct I as (_ & I & _). cbn. rewrite I. cbn.
      inversion NL as [|? ? N1 _]; subst. lia.
  - unfold c_prio, c_fail, c_ign. repeat match goal with |- context [match ?c with _ => _ end] => destruct c end; intros [= <- _ _ _]; discriminate.
  - unfold c_ign. destruct (_ =? 0); intros [= <- _ _ _]. discriminate.
Qed.
Lemma step_more_fits E s p s' ev : c_inv E s -> fits s -> p <> [] -> c_step true E s p = SMore s' ev -> fits s'.
Proof.
  intros I F N ST H. unfold fits in F. revert ST. unfold c_step. destruct (c_rd s) eqn:R;
    try (destruct (rd_varint _ _ _) || destruct (fr_varint _ _ _)); unfold c_fail, c_frame_start;
    try (repeat match goal with |- context [match ?c with _ => _ end] => destruct c end; (discriminate || (intros [= <- _]; discriminate))).
  - unfold c_prio, c_fail, c_ign, pri_bufsize. cbn [c_left c_with_buf]. specialize (F eq_refl). pose proof (zpos _ p N).
    destruct I as (_ & _ & _ & _ & I). rewrite R in I.
    repeat match goal with |- context [match ?c with _ => _ end] => destruct c eqn:? end; intros [= <- _]; try discriminate.
    cbn. rewrite zlen_app. unfold zlen at 2. rewrite firstn_length. unfold zlen in *. lia.
  - unfold c_ign. destruct (_ =? 0); [discriminate|intros [= <- _]; discriminate].
Qed.

Lemma no_long_app a b : no_long_value (a ++ b) <-> no_long_value a /\ no_long_value b.
Proof. apply Forall_app. Qed.
Lemma evs_rev ev r : r <> RAbort -> evs_ (rev_ ev r) = ev ++ evs_ r.
Proof. destruct r; cbn; congruence. Qed.
Lemma no_long_rev ev r : no_long_value (evs_ (rev_ ev r)) -> r <> RAbort -> no_long_value ev /\ no_long_value (evs_ r).
Proof. intros H N. rewrite evs_rev in H by auto. apply no_long_app; auto. Qed.

(* the code behaves as the variant unless a value is too long or the input ends behind an element ID *)
Lemma real_of_ideal E f : forall s p busy, c_inv E s -> bytes p -> (busy = true -> c_ce s) -> fits s ->
  let r := run_fuel (c_step true E) f s p busy in
  no_long_value (evs_ r) -> (forall s' ev, r = ROk s' ev -> p <> [] -> c_rd s' = CPrio -> c_buf s' <> []) -> r <> RAbort ->
  run_fuel (c_step false E) f s p busy = r /\ (forall s' ev, r = ROk s' ev -> fits s').
Proof.
  induction f as [|f IH]; intros s p busy I B BC F r; [unfold r; destruct p, busy; cbn; try congruence; intros _ _ _; split; auto; intros s' ev [= <- _]; auto|].
  assert (D : (p = [] /\ busy = false) \/ (p <> [] \/ busy = true) /\ forall g : cst -> list Z -> sres cst cev, run_fuel g (S f) s p busy = turn g s p (run_fuel g f)).
  { destruct p; [destruct busy|]; [right; split; auto|left; auto|right; split; [left; discriminate|reflexivity]]. }
  destruct D as [[-> ->]|[RN D]]; [unfold r; cbn; intros _ _ _; split; auto; intros s' ev [= <- _]; auto|]. unfold r. rewrite !D. unfold turn. clear r.
  assert (RN' : runnable c_ce s p) by (destruct RN; [left|right]; auto).
  pose proof (step_ok_all E s p I B RN') as OK.
  intros NL AB NA. destruct (step_real E s p I F) as [ST|(ST & v & l & ST2 & BE)].
  - rewrite ST. destruct (c_step true E s p) as [s1 r1 b1 e1|s1 e1|s1 r1 e1|e s1 e1|] eqn:S1; cbn [evs_ step_ok] in *; try (split; [reflexivity|]; intros ? ? [=]; fail).
    + destruct OK as (O1 & O2 & O3 & O4 & O5).
      set (q := run_fuel (c_step true E) f s1 r1 b1) in *.
      assert (NQ : q <> RAbort) by (intros Q; rewrite Q in NA; cbn in NA; congruence).
      destruct (no_long_rev _ _ NL NQ) as [NL1 NL2].
      pose proof (step_fits E s p s1 r1 b1 e1 I F S1 NL1) as F1.
      destruct (IH s1 r1 b1 O1 O2 O4 F1) as [K1 K2]; auto.
      { intros s' ev Q Np Rd. eapply AB; [unfold q; rewrite Q; reflexivity| |auto]. intros ->.
        destruct RN as [RN|RN]; [congruence|]. unfold measure in O3. specialize (BC RN). unfold c_ce in BC.
        assert (length r1 = 0%nat) by (unfold c_rank in O3; rewrite BC in O3; cbn in O3; destruct (c_rd s1); cbn in O3; lia). destruct r1; [congruence|discriminate]. }
      rewrite K1. split; [reflexivity|]. intros s' ev Q. fold q in Q. destruct q eqn:Qq; cbn [rev_] in Q; try discriminate. injection Q as <- _. eapply K2; eauto.
    + split; [reflexivity|]. intros s' ev [= <- _]. destruct p; [|eapply step_more_fits; eauto; discriminate].
      destruct RN as [RN|RN]; [congruence|]. specialize (BC RN). unfold c_ce in BC. unfold c_step in S1. rewrite BC in S1. unfold c_ign in S1.
      destruct (_ =? 0) in S1; [discriminate|]. injection S1 as <- _. intros H. discriminate.
  - exfalso. rewrite ST2 in AB. assert (Np : p <> []).
    { intros ->. unfold c_step in ST2. destruct RN as [RN|RN]; [congruence|]. specialize (BC RN). unfold c_ce in BC. rewrite BC in ST2. unfold c_ign in ST2. destruct (_ =? 0) in ST2; discriminate. }
    assert (Q : run_fuel (c_step true E) f (c_go s CPrio rv_reset l v) [] false = ROk (c_go s CPrio rv_reset l v) []) by (destruct f; reflexivity).
    rewrite Q in AB. apply (AB _ _ eq_refl Np); [reflexivity|exact BE].
Qed.
Lemma ideal_of_real E f : forall s p busy, c_inv E s -> bytes p -> (busy = true -> c_ce s) -> fits s ->
  let r := run_fuel (c_step false E) f s p busy in
  no_long_value (evs_ r) -> r <> RAbort -> run_fuel (c_step true E) f s p busy = r /\ (forall s' ev, r = ROk s' ev -> fits s').
Proof.
  induction f as [|f IH]; intros s p busy I B BC F r; [unfold r; destruct p, busy; cbn; try congruence; intros _ _; split; auto; intros s' ev [= <- _]; auto|].
  assert (D : (p = [] /\ busy = false) \/ (p <> [] \/ busy = true) /\ forall g : cst -> list Z -> sres cst cev, run_fuel g (S f) s p busy = turn g s p (run_fuel g f)).
  { destruct p; [destruct busy|]; [right; split; auto|left; auto|right; split; [left; discriminate|reflexivity]]. }
  destruct D as [[-> ->]|[RN D]]; [unfold r; cbn; intros _ _; split; auto; intros s' ev [= <- _]; auto|]. unfold r. rewrite !D. unfold turn. clear r.
  assert (RN' : runnable c_ce s p) by (destruct RN; [left|right]; auto).
  pose proof (step_ok_all E s p I B RN') as OK.
  intros NL NA. destruct (step_real E s p I F) as [ST|(ST & _)]; [|rewrite ST in NA; congruence].
  rewrite ST in *. destruct (c_step true E s p) as [s1 r1 b1 e1|s1 e1|s1 r1 e1|e s1 e1|] eqn:S1; cbn [evs_ step_ok] in *; try (split; [reflexivity|]; intros ? ? [=]; fail).
  - destruct OK as (O1 & O2 & O3 & O4 & O5).
    set (q := run_fuel (c_step false E) f s1 r1 b1) in *.
    assert (NQ : q <> RAbort) by (intros Q; rewrite Q in NA; cbn in NA; congruence).
    destruct (no_long_rev _ _ NL NQ) as [NL1 NL2].
    pose proof (step_fits E s p s1 r1 b1 e1 I F S1 NL1) as F1.
    destruct (IH s1 r1 b1 O1 O2 O4 F1) as [K1 K2]; auto. fold q in K1, K2.
    rewrite K1. split; [reflexivity|]. intros s' ev Q. destruct q eqn:Qq; cbn [rev_] in Q; try discriminate. injection Q as <- _. eapply K2; eauto.
  - split; [reflexivity|]. intros s' ev [= <- _]. destruct p; [|eapply step_more_fits; eauto; discriminate].
    destruct RN as [RN|RN]; [congruence|]. specialize (BC RN). unfold c_ce in BC. unfold c_step in S1. rewrite BC in S1. unfold c_ign in S1.
    destruct (_ =? 0) in S1; [discriminate|]. injection S1 as <- _. intros H. discriminate.
Qed.

Lemma step_nostop fx E s p s' rest ev : c_step fx E s p <> SStop s' rest ev.
Proof.
  unfold c_step, c_frame_start, c_prio, c_ign, c_fail. cbv zeta.
  repeat match goal with |- context [match ?c with _ => _ end] => destruct c end; discriminate.
Qed.
Lemma run_nostop fx E f : forall s p busy s' rest ev, run_fuel (c_step fx E) f s p busy <> RStop s' rest ev.
Proof.
  induction f as [|f IH]; intros s p busy s' rest ev; [destruct p, busy; discriminate|].
  assert (D : (p = [] /\ busy = false) \/ run_fuel (c_step fx E) (S f) s p busy = turn (c_step fx E) s p (run_fuel (c_step fx E) f)).
  { destruct p; [destruct busy|]; auto. }
  destruct D as [[-> ->]|D]; [discriminate|]. rewrite D. unfold turn.
  destruct (c_step fx E s p) as [s1 r1 b1 e1|s1 e1|s1 r1 e1|e s1 e1|] eqn:S1; try discriminate; [|exfalso; eapply step_nostop; eauto].
  destruct (run_fuel (c_step fx E) f s1 r1 b1) eqn:R; try discriminate. exfalso. eapply IH; eauto.
Qed.
Lemma feed_nostop fx E ps : forall s s' rest ev, feed (c_step fx E) 3 c_rank s ps <> RStop s' rest ev.
Proof.
  induction ps as [|p ps IH]; intros s s' rest ev; cbn [feed]; [discriminate|]. unfold seq_res, run.
  destruct (run_fuel (c_step fx E) _ s p false) eqn:R; try discriminate; [|exfalso; eapply run_nostop; eauto].
  destruct (feed (c_step fx E) 3 c_rank s0 ps) eqn:F; try discriminate. exfalso. eapply IH; eauto.
Qed.
Lemma evs_seq ev r : no_long_value (evs_ (rev_ ev r)) -> r <> RAbort -> no_long_value ev /\ no_long_value (evs_ r).
Proof. apply no_long_rev. Qed.
Lemma feed_ideal E ps : forall s, c_inv E s -> bytes (concat ps) -> fits s ->
  let r := feed (c_step false E) 3 c_rank s ps in no_long_value (evs_ r) -> r <> RAbort -> feed (c_step true E) 3 c_rank s ps = r.
Proof.
  induction ps as [|p ps IH]; intros s I B F r; unfold r; cbn [feed]; [auto|]. cbn [concat] in B. apply Forall_app in B as [B1 B2].
  pose proof (ideal_of_real E (S (measure 3 c_rank s p)) s p false I B1 ltac:(discriminate) F) as K. cbv zeta in K. fold (run (c_step false E) 3 c_rank s p false) in K.
  fold (run (c_step true E) 3 c_rank s p false) in K. unfold seq_res.
  destruct (run (c_step false E) 3 c_rank s p false) as [s1 e1|s1 r1 e1|e s1 e1|] eqn:R; intros NL NA.
  - set (q := feed (c_step false E) 3 c_rank s1 ps) in *.
    assert (NQ : q <> RAbort) by (intros Q; rewrite Q in NA; cbn in NA; congruence).
    destruct (no_long_rev _ _ NL NQ) as [N1 N2]. destruct K as [K1 K2]; auto; [discriminate|]. rewrite K1.
    assert (G : c_inv E s1).
    { pose proof (run_good (c_step true E) 3 c_rank (c_inv E) c_ce (step_ok_all E) s p false I B1 ltac:(discriminate)) as G. rewrite K1 in G. exact G. }
    rewrite (IH s1); auto. eapply K2; reflexivity.
  - exfalso. eapply run_nostop; eauto.
  - destruct K as [K1 _]; auto. rewrite K1. reflexivity.
  - congruence.
Qed.
Lemma ideal_cut E s ps1 ps2 : c_inv E s -> bytes (concat ps1) -> concat ps1 = concat ps2 ->
  feed (c_step true E) 3 c_rank s ps1 = feed (c_step true E) 3 c_rank s ps2.
Proof.
  intros I B C. pose proof (feed_concat (c_step true E) 3 c_rank (c_inv E) c_ce (step_ok_all E) ps1 s I B) as K1.
  pose proof (feed_concat (c_step true E) 3 c_rank (c_inv E) c_ce (step_ok_all E) ps2 s I ltac:(rewrite <- C; auto)) as K2.
  rewrite <- C in K2. unfold run in *. set (m := S (measure 3 c_rank s (concat ps1))) in *.
  destruct (feed (c_step true E) 3 c_rank s ps1) eqn:F1, (feed (c_step true E) 3 c_rank s ps2) eqn:F2, (run_fuel (c_step true E) m s (concat ps1) false) eqn:R; try contradiction;
    try (exfalso; eapply run_nostop; eauto; fail).
  - destruct K1, K2; subst; auto.
  - destruct K1 as (? & ? & ?), K2 as (? & ? & ?); subst; auto.
Qed.
Theorem server_cut E s ps1 ps2 : c_inv E s -> fits s -> bytes (concat ps1) -> concat ps1 = concat ps2 ->
  read_pieces E s ps1 <> RAbort -> read_pieces E s ps2 <> RAbort -> no_long_value (evs_ (read_pieces E s ps1)) -> no_long_value (evs_ (read_pieces E s ps2)) ->
  read_pieces E s ps1 = read_pieces E s ps2.
Proof.
  intros I F B C A1 A2 L1 L2. unfold read_pieces in *.
  rewrite <- (feed_ideal E ps1 s I B F L1 A1). rewrite C in B. rewrite <- (feed_ideal E ps2 s I B F L2 A2). rewrite <- C in B. apply ideal_cut; auto.
Qed.
Lemma client_run E f : ce_server E = false -> forall s p busy, c_inv E s -> bytes p -> (busy = true -> c_ce s) ->
  run_fuel (c_step false E) f s p busy = run_fuel (c_step true E) f s p busy.
Proof.
  intros CL. induction f as [|f IH]; intros s p busy I B BC; [destruct p, busy; reflexivity|].
  assert (D : (p = [] /\ busy = false) \/ (p <> [] \/ busy = true) /\ forall g : cst -> list Z -> sres cst cev, run_fuel g (S f) s p busy = turn g s p (run_fuel g f)).
  { destruct p; [destruct busy|]; [right; split; auto|left; auto|right; split; [left; discriminate|reflexivity]]. }
  destruct D as [[-> ->]|[RN D]]; [reflexivity|]. rewrite !D. unfold turn.
  assert (RN' : runnable c_ce s p) by (destruct RN; [left|right]; auto).
  pose proof (step_ok_all E s p I B RN') as OK.
  assert (ST : c_step false E s p = c_step true E s p).
  { destruct I as (_ & _ & _ & _ & I). unfold c_step. destruct (c_rd s); auto; destruct I as (? & ?); intuition congruence. }
  rewrite ST. destruct (c_step true E s p) as [s1 r1 b1 e1|s1 e1|s1 r1 e1|e s1 e1|] eqn:S1; try reflexivity.
  destruct OK as (O1 & O2 & O3 & O4 & O5). rewrite IH by auto. reflexivity.
Qed.
Lemma client_feed E ps : ce_server E = false -> forall s, c_inv E s -> bytes (concat ps) ->
  feed (c_step false E) 3 c_rank s ps = feed (c_step true E) 3 c_rank s ps.
Proof.
  intros CL. induction ps as [|p ps IH]; intros s I B; cbn [feed]; [auto|]. cbn [concat] in B. apply Forall_app in B as [B1 B2].
  assert (R : run (c_step false E) 3 c_rank s p false = run (c_step true E) 3 c_rank s p false) by (apply client_run; auto; discriminate).
  rewrite R. pose proof (run_good (c_step true E) 3 c_rank (c_inv E) c_ce (step_ok_all E) s p false I B1 ltac:(discriminate)) as G.
  destruct (run (c_step true E) 3 c_rank s p false); cbn [seq_res]; auto. rewrite IH by auto. reflexivity.
Qed.
Theorem client_cut E s ps1 ps2 : ce_server E = false -> c_inv E s -> bytes (concat ps1) -> concat ps1 = concat ps2 ->
  read_pieces E s ps1 <> RAbort /\ read_pieces E s ps1 = read_pieces E s ps2.
Proof.
  intros CL I B C. unfold read_pieces. rewrite !client_feed by (auto; rewrite <- C; auto). split; [|apply ideal_cut; auto].
  pose proof (feed_concat (c_step true E) 3 c_rank (c_inv E) c_ce (step_ok_all E) ps1 s I B) as K. intros Q. rewrite Q in K. exact K.
Qed.

(* ---- traces of the code ---- *)
Definition r_inv (s : cst) : Prop :=
  rv_inv (c_rv s) /\ 0 <= c_left s /\ 0 <= c_goaway s <= 2 ^ 62 /\
  match c_rd s with CSetId | CSetVal | CGoaway | CMaxPush | CElemId | CPrio => 0 < c_left s | _ => True end.
Definition clink (server : bool) (s : cst) (st : cstage * Z) : Prop :=
  snd st = c_goaway s /\
  match c_rd s with
  | CType | CLen => if c_seen s then between (fst st) else fst st = Fresh
  | CSetId | CSetVal => fst st = InSettings /\ c_seen s = true
  | CGoaway => fst st = InGoaway /\ c_seen s = true
  | CMaxPush | CIgn => between (fst st) /\ c_seen s = true
  | CElemId => fst st = InPrio /\ c_seen s = true /\ server = true
  | CPrio => fst st = InValue (c_id s) /\ c_seen s = true /\ server = true
  end.
Definition strace (server : bool) (st : cstage * Z) (r : sres cst cev) : Prop :=
  match r with
  | SGo s' rest _ ev => bytes rest /\ r_inv s' /\ exists st', cleads server st ev st' /\ clink server s' st'
  | SMore s' ev => r_inv s' /\ exists st', cleads server st ev st' /\ clink server s' st'
  | SStop _ _ _ => False
  | SErr _ _ ev => ev = []
  | SAbort => True
  end.
Lemma cleads_app server a b st st1 st2 : cleads server st a st1 -> cleads server st1 b st2 -> cleads server st (a ++ b) st2.
Proof. induction 1; cbn; auto. intros. econstructor; eauto. Qed.
Lemma cl_one server st e st' : cnext server st e st' -> cleads server st [e] st'.
Proof. intros. econstructor; eauto. constructor. Qed.
Lemma client_bidi_mod id : client_bidi id = true -> id mod 4 = 0.
Proof. unfold client_bidi. intros H. apply Z.eqb_eq in H. change 3 with (Z.ones 2) in H. rewrite Z.land_ones in H by lia. exact H. Qed.
Lemma parse_pri_range sf p v p' : parse_priority sf p v = Some p' -> 0 <= p_urg p <= 7 -> p_inc p = 0 \/ p_inc p = 1 -> 0 <= p_urg p' <= 7 /\ (p_inc p' = 0 \/ p_inc p' = 1).
Proof.
  unfold parse_priority. destruct (sf v) as [items eof]. destruct (parse_pri_items items p) as [q|] eqn:Q; [|discriminate]. destruct eof; [|discriminate].
  intros [= <-]. clear sf v. revert p Q. induction items as [|[k w] items IH]; intros p Q U V.
  - injection Q as <-. auto.
  - cbn [parse_pri_items] in Q. unfold URGENCY_LOW in Q.
    assert (I1 : forall b, parse_pri_items items (mk_pri (p_urg p) (if b : bool then 1 else 0)) = Some q -> 0 <= p_urg q <= 7 /\ (p_inc q = 0 \/ p_inc q = 1)).
    { intros b H. apply IH in H; auto. cbn. destruct b; auto. }
    assert (I2 : forall n, (n <? 0) || (7 <? n) = false -> parse_pri_items items (mk_pri n (p_inc p)) = Some q -> 0 <= p_urg q <= 7 /\ (p_inc q = 0 \/ p_inc q = 1)).
    { intros n Hn H. apply IH in H; auto. cbn. apply orb_false_iff in Hn. lia. }
    revert Q. repeat match goal with |- context [match ?c with _ => _ end] => destruct c eqn:? end; intros Q; try discriminate; eauto.
Qed.
Lemma settings_trace server g sv r id v r' evs : 0 <= v -> settings_entry sv r id v = Ok (r', evs) -> cleads server (InSettings, g) evs (InSettings, g).
Proof.
  intros V. unfold settings_entry.
  repeat match goal with |- context [if ?c then _ else _] => destruct c eqn:? end; intros [= _ <-]; try constructor; try apply cl_one; try constructor; lia.
Qed.
Lemma fr_pos rv l p : rv_inv rv -> 0 < l -> bytes p -> match fr_varint rv l p with FvAbort => True | _ => fv_ok rv l p end.
Proof. intros R L B. destruct p as [|z p]; [unfold fr_varint; rewrite zlen_nil, Z.min_r by lia; exact Logic.I|]. destruct (fr_varint rv l (z :: p)) eqn:F; auto; apply fr_varint_ok; auto; discriminate. Qed.
Lemma rd_pos rv p : rv_inv rv -> bytes p -> match rd_varint rv p false with VAbort => True | _ => vres_ok rv p end.
Proof. intros R B. destruct p as [|z p]; [exact Logic.I|]. destruct (rd_varint rv (z :: p) false) eqn:F; auto; apply rd_varint_ok; auto; discriminate. Qed.
Ltac nostep g st := exists (st, g); split; [constructor|]; split; cbn; auto.
Lemma between_cases st : between st -> st = Idle \/ st = InOther \/ exists id, st = InValue id.
Proof. destruct st; cbn; try contradiction; eauto. Qed.
Lemma step_trace E s p st : r_inv s -> bytes p -> clink (ce_server E) s st -> strace (ce_server E) st (c_step false E s p).
Proof.
  intros (R1 & R2 & R3 & R4) B [L1 L2]. destruct st as [st g]. cbn [fst snd] in *. subst g. set (g := c_goaway s) in *.
  unfold c_step. destruct (c_rd s) eqn:Rd.
  - (* type *)
    pose proof (rd_pos (c_rv s) p R1 B) as V. unfold vres_ok in V. destruct (rd_varint (c_rv s) p false) as [rv'|v rest| |]; cbn [strace c_fail]; auto.
    + destruct V as (V1 & _). split; [repeat split; auto; apply R3|]. nostep g st.
    + destruct V as (V1 & V2 & _). split; auto. split; [repeat split; auto using rv_inv_reset; apply R3|]. nostep g st.
  - (* length *)
    pose proof (rd_pos (c_rv s) p R1 B) as V. unfold vres_ok in V. destruct (rd_varint (c_rv s) p false) as [rv'|v rest| |]; cbn [strace c_fail]; auto.
    + destruct V as (V1 & _). split; [repeat split; auto; apply R3|]. nostep g st.
    + destruct V as (V1 & V2 & _). unfold c_frame_start. cbv zeta.
      destruct (Z.eqb_spec (c_ty s) FRAME_SETTINGS) as [TS|TS].
      { destruct (c_seen s) eqn:SE; cbn [negb andb]; [reflexivity|]. subst st.
        destruct (Z.eqb_spec v 0).
        - split; auto. split; [repeat split; auto using rv_inv_reset; cbn; lia|]. exists (Idle, g). split; [|split; cbn; auto].
          rewrite TS. eapply cl_cons; [apply cn_settings|]. apply cl_one. apply cn_recv_settings.
        - split; auto. split; [repeat split; auto using rv_inv_reset; cbn; lia|]. exists (InSettings, g). split; [|split; cbn; auto].
          rewrite TS. apply cl_one. apply cn_settings. }
      rewrite andb_false_r. destruct (c_seen s) eqn:SE; cbn [negb andb]; [|reflexivity].
      destruct (Z.eqb_spec (c_ty s) FRAME_GOAWAY) as [TG|TG].
      { destruct (Z.eqb_spec v 0); [reflexivity|]. split; auto. split; [repeat split; auto using rv_inv_reset; cbn; lia|]. exists (InGoaway, g). split; [|split; cbn; auto].
        rewrite TG. apply cl_one. apply cn_goaway; auto. }
      assert (OTHER : (c_ty s <> PRIORITY_UPDATE -> c_ty s <> PRIORITY_UPDATE_PUSH -> ~ In (c_ty s) never_on_control -> (In (c_ty s) sent_by_clients -> ce_server E = true) ->
        cleads (ce_server E) (st, g) [CvFrame (c_ty s) v] (InOther, g))).
      { intros. apply cl_one. apply cn_other; auto. }
      destruct (Z.eqb_spec (c_ty s) FRAME_MAX_PUSH_ID) as [TM|TM].
      { destruct (ce_server E) eqn:SV; cbn [negb]; [|reflexivity]. destruct (Z.eqb_spec v 0); [reflexivity|].
        split; auto. split; [repeat split; auto using rv_inv_reset; cbn; lia|]. exists (InOther, g). split; [|split; cbn; auto].
        rewrite TM in *. apply OTHER; auto; try discriminate. cbn. intuition discriminate. }
      destruct (Z.eqb_spec (c_ty s) FRAME_PRIORITY_UPDATE) as [TP|TP].
      { destruct (ce_server E) eqn:SV; cbn [negb]; [|reflexivity]. destruct (Z.eqb_spec v 0); [reflexivity|].
        split; auto. split; [repeat split; auto using rv_inv_reset; cbn; lia|]. exists (InPrio, g). split; [|split; cbn; auto].
        rewrite TP. apply cl_one. apply cn_prio; auto. }
      destruct (Z.eqb_spec (c_ty s) FRAME_PRIORITY_UPDATE_PUSH_ID) as [TU|TU]; [reflexivity|].
      destruct (c_refused (c_ty s)) eqn:RF; [reflexivity|].
      split; auto. split; [repeat split; auto using rv_inv_reset; cbn; lia|]. exists (InOther, g). split; [|split; cbn; auto].
      apply OTHER; auto.
      * unfold c_refused in RF. rewrite !orb_false_iff, !Z.eqb_neq in RF. cbn. unfold FRAME_CANCEL_PUSH, FRAME_DATA, FRAME_HEADERS, FRAME_PUSH_PROMISE in RF.
        unfold DATA, HEADERS, CANCEL_PUSH, PUSH_PROMISE. intuition.
      * cbn. intros [H|[H|[]]]; exfalso; [apply TM|apply TP]; symmetry; exact H.
  - destruct L2 as [-> SE]. pose proof (fr_pos (c_rv s) (c_left s) p R1 R4 B) as V. unfold fv_ok in V. destruct (fr_varint (c_rv s) (c_left s) p) as [rv' l'|v l' rest| |]; cbn [strace c_fail]; auto.
    + destruct V as (V1 & V2 & _). split; [repeat split; auto; cbn; lia|]. nostep g InSettings.
    + destruct V as (V1 & V2 & V3 & _). destruct (Z.eqb_spec l' 0); [reflexivity|]. split; auto. split; [repeat split; auto using rv_inv_reset; cbn; lia|]. nostep g InSettings.
  - destruct L2 as [-> SE]. pose proof (fr_pos (c_rv s) (c_left s) p R1 R4 B) as V. unfold fv_ok in V. destruct (fr_varint (c_rv s) (c_left s) p) as [rv' l'|v l' rest| |]; cbn [strace c_fail]; auto.
    + destruct V as (V1 & V2 & _). split; [repeat split; auto; cbn; lia|]. nostep g InSettings.
    + destruct V as (V1 & V2 & V3 & _). destruct (settings_entry _ _ _ _) as [[r evs]| |] eqn:ST; cbn [strace c_fail]; auto.
      pose proof (settings_trace (ce_server E) g _ _ _ _ _ _ (proj1 V1) ST) as T.
      destruct (Z.eqb_spec l' 0).
      * split; auto. split; [repeat split; auto using rv_inv_reset; cbn; lia|]. exists (Idle, g). split; [|split; cbn; rewrite ?SE; cbn; auto].
        eapply cleads_app; [exact T|]. apply cl_one. apply cn_recv_settings.
      * split; auto. split; [repeat split; auto using rv_inv_reset; cbn; lia|]. exists (InSettings, g). split; auto. split; cbn; auto.
  - destruct L2 as [-> SE]. pose proof (fr_pos (c_rv s) (c_left s) p R1 R4 B) as V. unfold fv_ok in V. destruct (fr_varint (c_rv s) (c_left s) p) as [rv' l'|v l' rest| |]; cbn [strace c_fail]; auto.
    + destruct V as (V1 & V2 & _). split; [repeat split; auto; cbn; lia|]. nostep g InGoaway.
    + destruct V as (V1 & V2 & V3 & _). destruct (negb (ce_server E) && negb (client_bidi v)) eqn:Q1; [reflexivity|].
      destruct (Z.ltb_spec (c_goaway s) v) as [Q2|Q2]; [reflexivity|]. fold g in Q2. unfold max_varint in V1.
      split; auto. split; [repeat split; auto using rv_inv_reset; cbn; lia|]. exists (Idle, v). split; [|split; cbn; rewrite ?SE; cbn; auto].
      apply cl_one. apply cn_shutdown; [lia|lia|]. intros CS. rewrite CS in Q1. cbn [negb andb] in Q1. apply negb_false_iff in Q1. apply client_bidi_mod; auto.
  - destruct L2 as [L2 SE]. pose proof (fr_pos (c_rv s) (c_left s) p R1 R4 B) as V. unfold fv_ok in V. destruct (fr_varint (c_rv s) (c_left s) p) as [rv' l'|v l' rest| |]; cbn [strace c_fail]; auto.
    + destruct V as (V1 & V2 & _). split; [repeat split; auto; cbn; lia|]. nostep g st.
    + destruct V as (V1 & V2 & V3 & _). destruct (v + 1 <? c_pushes s); [reflexivity|]. split; auto. split; [repeat split; auto using rv_inv_reset; cbn; lia|].
      exists (st, g). split; [constructor|]. split; cbn; rewrite ?SE; auto.
  - destruct L2 as (-> & SE & SV). pose proof (fr_pos (c_rv s) (c_left s) p R1 R4 B) as V. unfold fv_ok in V. destruct (fr_varint (c_rv s) (c_left s) p) as [rv' l'|v l' rest| |]; cbn [strace c_fail]; auto.
    + destruct V as (V1 & V2 & _). split; [repeat split; auto; cbn; lia|]. nostep g InPrio.
    + destruct V as (V1 & V2 & V3 & _). rewrite SV. cbn [negb]. destruct (Z.eqb_spec l' 0) as [|NZ].
      * destruct (prio_allowed E v) eqn:PA; [|reflexivity]. apply andb_true_iff in PA as [PA _].
        split; auto. split; [repeat split; auto using rv_inv_reset; cbn; lia|]. exists (Idle, g). split; [|split; cbn; rewrite ?SE; cbn; auto].
        eapply cl_cons; [apply cn_elem|]. apply cl_one. apply cn_priority; [apply client_bidi_mod; auto|cbn; unfold DEFAULT_URGENCY; lia|cbn; auto].
      * destruct (true && _); [exact Logic.I|]. split; auto. split; [repeat split; auto using rv_inv_reset; cbn; lia|]. exists (InValue v, g). split; [|split; cbn; auto].
        apply cl_one. apply cn_elem.
  - destruct L2 as (-> & SE & SV). unfold c_prio, pri_bufsize. rewrite SV. cbn [negb].
    set (len := Z.min (c_left s) (zlen p)).
    assert (TL : strace true (InValue (c_id s), g) (SGo (c_go s CIgn (c_rv s) (c_left s) (c_id s)) p true [])).
    { split; auto. split; [repeat split; auto; apply R3|]. exists (InValue (c_id s), g). split; [constructor|]. split; cbn; auto. }
    assert (DN : forall value, strace true (InValue (c_id s), g) match parse_priority (ce_sf E) {| p_urg := DEFAULT_URGENCY; p_inc := 0 |} value with
      | Some pr => if prio_allowed E (c_id s) then SGo (c_reset (c_with_buf s [])) (skipn (Z.to_nat len) p) false [CvPriority (c_id s) pr] else c_fail ERR_H3_ID_ERROR []
      | None => c_fail ERR_H3_GENERAL_PROTOCOL_ERROR [] end).
    { intros value. destruct (parse_priority _ _ value) as [pr|] eqn:PP; [|reflexivity]. destruct (prio_allowed E (c_id s)) eqn:PA; [|reflexivity]. apply andb_true_iff in PA as [PA _].
      apply parse_pri_range in PP; [|cbn; unfold DEFAULT_URGENCY; lia|cbn; auto].
      split; [apply bytes_skipn; auto|]. split; [repeat split; auto using rv_inv_reset; cbn; lia|]. exists (Idle, g). split; [|split; cbn; rewrite ?SE; cbn; auto].
      apply cl_one. apply cn_priority; [apply client_bidi_mod; auto|tauto|tauto]. }
    destruct (Z.leb_spec len 0); [exact Logic.I|].
    destruct (_ && _); [destruct (8 <? len); auto|]. destruct (8 <? len + zlen (c_buf s)); auto.
    destruct (Z.eqb_spec (c_left s) len); auto.
    split; [repeat split; auto using rv_inv_reset; cbn; lia|]. nostep g (InValue (c_id s)).
  - destruct L2 as [L2 SE]. unfold c_ign. set (len := Z.min (c_left s) (zlen p)). pose proof (zlen_nonneg _ p). destruct (Z.eqb_spec (c_left s - len) 0).
    + split; [apply bytes_skipn; auto|]. split; [repeat split; auto using rv_inv_reset; cbn; lia|]. exists (st, g). split; [constructor|]. split; cbn; rewrite ?SE; auto.
    + split; [repeat split; auto using rv_inv_reset; cbn; lia|]. nostep g st.
Qed.
Lemma run_trace E f : forall s p busy st, r_inv s -> bytes p -> clink (ce_server E) s st ->
  match run_fuel (c_step false E) f s p busy with
  | ROk s' ev => r_inv s' /\ exists st', cleads (ce_server E) st ev st' /\ clink (ce_server E) s' st'
  | RStop _ _ _ => False
  | RErr _ _ ev => exists st', cleads (ce_server E) st ev st'
  | RAbort => True
  end.
Proof.
  induction f as [|f IH]; intros s p busy st I B L; [destruct p, busy; cbn; auto; split; auto; exists st; split; auto; constructor|].
  assert (D : (p = [] /\ busy = false) \/ run_fuel (c_step false E) (S f) s p busy = turn (c_step false E) s p (run_fuel (c_step false E) f)).
  { destruct p; [destruct busy|]; auto. }
  destruct D as [[-> ->]|D]; [cbn; split; auto; exists st; split; auto; constructor|]. rewrite D. unfold turn.
  pose proof (step_trace E s p st I B L) as T.
  destruct (c_step false E s p) as [s1 r1 b1 e1|s1 e1|s1 r1 e1|e s1 e1|]; cbn [strace] in T; auto.
  - destruct T as (B1 & I1 & st1 & C1 & L1). specialize (IH s1 r1 b1 st1 I1 B1 L1).
    destruct (run_fuel (c_step false E) f s1 r1 b1) as [s2 e2|s2 r2 e2|e s2 e2|]; cbn [rev_]; auto.
    + destruct IH as (I2 & st2 & C2 & L2). split; auto. exists st2. split; auto. eapply cleads_app; eauto.
    + destruct IH as (st2 & C2). exists st2. eapply cleads_app; eauto.
  - subst e1. exists st. constructor.
Qed.
Lemma feed_trace E ps : forall s st, r_inv s -> bytes (concat ps) -> clink (ce_server E) s st ->
  match read_pieces E s ps with
  | ROk s' ev => r_inv s' /\ exists st', cleads (ce_server E) st ev st' /\ clink (ce_server E) s' st'
  | RStop _ _ _ => False
  | RErr _ _ ev => exists st', cleads (ce_server E) st ev st'
  | RAbort => True
  end.
Proof.
  unfold read_pieces. induction ps as [|p ps IH]; intros s st I B L; cbn [feed]; [split; auto; exists st; split; auto; constructor|].
  cbn [concat] in B. apply Forall_app in B as [B1 B2].
  pose proof (run_trace E (S (measure 3 c_rank s p)) s p false st I B1 L) as T. fold (run (c_step false E) 3 c_rank s p false) in T.
  destruct (run (c_step false E) 3 c_rank s p false) as [s1 e1|s1 r1 e1|e s1 e1|]; cbn [seq_res]; auto.
  destruct T as (I1 & st1 & C1 & L1). specialize (IH s1 st1 I1 B2 L1).
  destruct (feed (c_step false E) 3 c_rank s1 ps) as [s2 e2|s2 r2 e2|e s2 e2|]; cbn [rev_]; auto.
  - destruct IH as (I2 & st2 & C2 & L2). split; auto. exists st2. split; auto. eapply cleads_app; eauto.
  - destruct IH as (st2 & C2). exists st2. eapply cleads_app; eauto.
Qed.
Lemma r_inv_init : r_inv cst_init.
Proof. repeat split; cbn; try lia; auto using rv_inv_reset. Qed.
Lemma clink_init sv : clink sv cst_init (Fresh, 2 ^ 62).
Proof. split; reflexivity. Qed.
Theorem control_trace E ps : bytes (concat ps) -> exists st, cleads (ce_server E) (Fresh, 2 ^ 62) (evs_ (read_pieces E cst_init ps)) st.
Proof.
  intros B. pose proof (feed_trace E ps cst_init _ r_inv_init B (clink_init _)) as T.
  destruct (read_pieces E cst_init ps) as [s' ev|s' r ev|e s' ev|]; cbn [evs_]; auto; try contradiction.
  - destruct T as (_ & st & C & _). eauto.
  - exists (Fresh, 2 ^ 62). constructor.
Qed.

(* consequences of the grammar *)
Lemma leads_after sv st evs st' : cleads sv st evs st' -> fst st <> Fresh ->
  ~ In SETTINGS (frames_of evs) /\ nonincreasing (snd st) (shutdowns_of evs) /\ fst st' <> Fresh.
Proof.
  induction 1 as [st|st e st1 evs st' N C IH]; intros F; [cbn; auto|].
  assert (F1 : fst st1 <> Fresh) by (inversion N; subst; cbn; discriminate).
  destruct (IH F1) as (I1 & I2 & I3). split; [|split; auto].
  - inversion N; subst; cbn [frames_of flat_map app] in *; auto; cbn in F; try congruence; cbn; intros [Q|Q]; try congruence; auto; discriminate.
  - inversion N; subst; cbn [shutdowns_of flat_map app] in *; auto. cbn. cbn in I2. split; [lia|]. exact I2.
Qed.
Lemma leads_fresh sv g evs st' : cleads sv (Fresh, g) evs st' ->
  evs = [] \/ exists n evs', evs = CvFrame SETTINGS n :: evs' /\ ~ In SETTINGS (frames_of evs') /\ nonincreasing g (shutdowns_of evs').
Proof.
  intros C. inversion C as [|? e st1 evs1 ? N C1]; subst; auto. right. inversion N; subst; try contradiction.
  exists n, evs1. split; auto. apply leads_after in C1; [|discriminate]. tauto.
Qed.
Theorem settings_first E ps : bytes (concat ps) ->
  let fs := frames_of (evs_ (read_pieces E cst_init ps)) in fs = [] \/ exists fs', fs = SETTINGS :: fs' /\ ~ In SETTINGS fs'.
Proof.
  intros B. destruct (control_trace E ps B) as (st & C). apply leads_fresh in C as [->|(n & evs' & -> & N & _)]; [left; reflexivity|right].
  eexists. split; [reflexivity|]. exact N.
Qed.
Theorem shutdown_ids E ps : bytes (concat ps) -> nonincreasing (2 ^ 62) (shutdowns_of (evs_ (read_pieces E cst_init ps))).
Proof.
  intros B. destruct (control_trace E ps B) as (st & C). apply leads_fresh in C as [->|(n & evs' & -> & N & K)]; [cbn; auto|exact K].
Qed.
