(* What later encoder stream bytes do to the decoder's table, and what a decoder history
   without errors has done with the bytes it received. *)
From Verif Require Import Base BaseLemmas Tables ConvProofs QpackIntModel QpackIntSpec QpackIntProofs
  HuffModel HuffSpec HuffProofs QpackTabModel QpackTabSpec QpackTabProofs QpackDynSpec QpackDynProofs
  Chunk QpackDecModel QpackReadProofs QpackDecProofs QpackSecProofs QpackHistModel QpackHistSpec QpackHistProofs QpackCutProofs QpackEncModel
  QpackWireProofs QpackEncSpec QpackEncProofs.

(* ---- entries keep their index ---- *)
Definition old_of (c c' : ctx) : Prop :=
  hard_max c' = hard_max c /\ next_absidx c <= next_absidx c' /\ forall i f, at_index c' i f -> i < next_absidx c -> at_index c i f.
Lemma old_refl c : old_of c c. Proof. split; [auto|]. split; [lia|auto]. Qed.
Lemma old_trans a b c : old_of a b -> old_of b c -> old_of a c.
Proof.
  intros (H1 & H2 & H3) (K1 & K2 & K3). split; [congruence|]. split; [lia|]. intros i f A L. apply H3; auto. apply K3; auto. lia.
Qed.
Lemma old_bad c : old_of c (ctx_bad c). Proof. split; [auto|]. split; [cbn; lia|]. intros i f A _. exact A. Qed.
Lemma evict_suffix l : forall size space cap l' size', evict_loop l size space cap = Ok (l', size') -> exists t, l = t ++ l'.
Proof.
  induction l as [|e l IH]; intros size space cap l' size'; cbn [evict_loop]; destruct (_ >? _); try discriminate.
  - intros [= <- <-]. exists []; auto.
  - intros H. destruct (IH _ _ _ _ _ H) as [t ->]. exists (e :: t); auto.
  - intros [= <- <-]. exists []; auto.
Qed.
Lemma evict_prefix c size space cap l' size' : evict_loop (rev (dtable c)) size space cap = Ok (l', size') ->
  exists t, dtable c = rev l' ++ t.
Proof.
  intros H. destruct (evict_suffix _ _ _ _ _ _ H) as [t E]. exists (rev t). rewrite <- rev_app_distr, <- E, rev_involutive. auto.
Qed.
Lemma nth_prefix A (l t : list A) n x : nth_error l n = Some x -> nth_error (l ++ t) n = Some x.
Proof. intros H. rewrite nth_error_app1; auto. apply nth_error_Some. congruence. Qed.
Lemma dec_add_old c n v t c' : dec_add c n v t = Ok c' -> old_of c c'.
Proof.
  unfold dec_add, dtable_add. cbv zeta. destruct (_ >? _); [discriminate|]. destruct (evict_loop _ _ _ _) as [[l s]|e|] eqn:Ev; try discriminate.
  intros H; injection H as <-. destruct (evict_prefix _ _ _ _ _ _ Ev) as [u E].
  split; [auto|]. split; [cbn; lia|]. intros i f [A B] L. cbn [next_absidx] in *. split; [lia|].
  unfold contents in *. cbn [dtable map] in B. replace (Z.to_nat (next_absidx c + 1 - 1 - i)) with (S (Z.to_nat (next_absidx c - 1 - i))) in B by lia.
  cbn [nth_error] in B. rewrite E, map_app. apply nth_prefix. exact B.
Qed.
Lemma dec_set_cap_old c n c' : dec_set_cap c n = Ok c' -> old_of c c'.
Proof.
  unfold dec_set_cap. destruct (_ >? _); [discriminate|]. destruct (evict_loop _ _ _ _) as [[l s]|e|] eqn:Ev; try discriminate.
  intros H; injection H as <-. destruct (evict_prefix _ _ _ _ _ _ Ev) as [u E].
  split; [auto|]. split; [cbn; lia|]. intros i f [A B] L. cbn [next_absidx] in *. split; [lia|].
  unfold contents in *. cbn [dtable] in B. rewrite E, map_app. apply nth_prefix. exact B.
Qed.
Definition dold (d d' : dec) : Prop := old_of (d_ctx d) (d_ctx d').
Lemma es_step_old d p :
  match es_step d p with
  | SGo d' _ _ _ | SMore d' _ | SStop d' _ _ | SErr _ d' _ => dold d d'
  | SAbort => True
  end.
Proof.
  assert (M : forall st op r, dold d (d_set_op d st op r)) by (intros; apply old_refl).
  assert (M2 : forall st r, dold d (d_set d st r)) by (intros; apply old_refl).
  assert (MF : dold d (d_fail d)) by apply old_bad.
  assert (MD : forall c st r, old_of (d_ctx d) c -> dold d (d_set (d_set_ctx d c) st r)) by (intros; auto).
  assert (DI : forall r c', dec_indexed_add (d_ctx d) r = Ok c' -> old_of (d_ctx d) c').
  { intros r c'. unfold dec_indexed_add. destruct (r_dynamic r).
    - destruct (dtable_get _ _); [apply dec_add_old|discriminate].
    - destruct (stable_get _) as [[[? ?] ?]|]; [apply dec_add_old|discriminate]. }
  assert (DD : forall r c', dec_duplicate_add (d_ctx d) r = Ok c' -> old_of (d_ctx d) c').
  { intros r c'. unfold dec_duplicate_add.
    destruct (dtable_get _ _); [apply dec_add_old|discriminate]. }
  assert (DL : forall r c', dec_literal_add (d_ctx d) r = Ok c' -> old_of (d_ctx d) c').
  { intros r c'. unfold dec_literal_add. apply dec_add_old. }
  unfold es_step, es_read_index, es_read_namelen, es_read_valuelen, es_read_name, es_read_value, es_done, es_fail. destruct (d_state d) eqn:St.
  - destruct p as [|b p]; [auto|]. cbv zeta.
    repeat (match goal with |- context [if ?X then _ else _] => destruct X end); apply M.
  - destruct (q_read_varint _ _ _ _) as [[[[l sh] r] [|]]|e|]; auto. cbv zeta.
    destruct (d_op d).
    + destruct (rel2abs _ _); auto.
    + destruct (rel2abs _ _); auto.
    + destruct (rel2abs _ _) as [r'|e|]; auto. destruct (dec_duplicate_add _ _) eqn:E; auto. apply MD. eauto.
    + destruct (dec_set_cap _ _) eqn:E; auto. apply MD. eapply dec_set_cap_old; eauto.
  - destruct p; [auto|]. destruct (q_read_varint _ _ _ _) as [[[[l sh] r] [|]]|e|]; auto. cbv zeta. destruct (_ >? _); auto.
  - destruct (q_read_varint _ _ _ _) as [[[[l sh] r] [|]]|e|]; auto. cbv zeta. destruct (_ >? _); auto.
  - destruct (read_str _ _ _ _ _ _) as [[[[l f] nm] r]|e|]; auto. cbv zeta. destruct (negb _); auto.
  - destruct (read_str _ _ _ _ _ _) as [[[[l f] nm] r]|e|]; auto. cbv zeta. destruct (negb _); auto.
  - destruct p; [auto|]. destruct (q_read_varint _ _ _ _) as [[[[l sh] r] [|]]|e|]; auto. cbv zeta. destruct (_ >? _); auto.
  - destruct (q_read_varint _ _ _ _) as [[[[l sh] r] [|]]|e|]; auto. cbv zeta. destruct (_ >? _); auto.
  - destruct (read_str _ _ _ _ _ _) as [[[[l f] nm] r]|e|]; auto. cbv zeta. destruct (negb _); auto.
    destruct (d_op d); auto; [destruct (dec_indexed_add _ _) eqn:E; auto; apply MD; eauto|destruct (dec_literal_add _ _) eqn:E; auto; apply MD; eauto].
  - destruct (read_str _ _ _ _ _ _) as [[[[l f] nm] r]|e|]; auto. cbv zeta. destruct (negb _); auto.
    destruct (d_op d); auto; [destruct (dec_indexed_add _ _) eqn:E; auto; apply MD; eauto|destruct (dec_literal_add _ _) eqn:E; auto; apply MD; eauto].
Qed.
Lemma es_run_old d p :
  match es_run d p with
  | ROk d' _ | RStop d' _ _ | RErr _ d' _ => dold d d'
  | RAbort => True
  end.
Proof.
  unfold es_run, run. generalize (S (measure 8 es_rank d p)). intros f. generalize false as busy.
  revert d p. induction f as [|f IH]; intros d p busy.
  - destruct p, busy; cbn; auto; apply old_refl.
  - assert (T : match turn es_step d p (run_fuel es_step f) with
              | ROk d' _ | RStop d' _ _ | RErr _ d' _ => dold d d' | RAbort => True end).
    { unfold turn. pose proof (es_step_old d p) as E. destruct (es_step d p) as [d1 r b ev| | | |]; auto.
      specialize (IH d1 r b). destruct (run_fuel es_step f d1 r b); cbn; auto; eapply old_trans; eauto. }
    destruct p, busy; cbn [run_fuel]; auto. apply old_refl.
Qed.

(* ---- the table does not depend on the decoder's other fields ---- *)
Definition core (d : dec) : dec := mk_dec (d_ctx d) (d_state d) (d_op d) (d_rs d) [] 0 0 0 [].
Lemma es_core_comm d p : es_step (core d) p =
  match es_step d p with
  | SGo d' r b ev => SGo (core d') r b ev
  | SMore d' ev => SMore (core d') ev
  | SStop d' r ev => SStop (core d') r ev
  | SErr e d' ev => SErr e (core d') ev
  | SAbort => SAbort
  end.
Proof.
  unfold es_step, es_read_index, es_read_namelen, es_read_valuelen, es_read_name, es_read_value.
  cbn [d_state d_op d_rs d_ctx core].
  destruct (d_state d).
  - destruct p; [auto|]. cbv zeta. repeat (match goal with |- context [if ?X then _ else _] => destruct X end); auto.
  - destruct (q_read_varint _ _ _ _) as [[[[l sh] r] [|]]|e|]; auto. cbv zeta.
    destruct (d_op d); repeat (match goal with |- context [match ?X with Ok _ => _ | Err _ => _ | Abort => _ end] => destruct X; auto end); auto.
  - destruct p; [auto|]. destruct (q_read_varint _ _ _ _) as [[[[l sh] r] [|]]|e|]; auto. destruct (_ >? _); auto.
  - destruct (q_read_varint _ _ _ _) as [[[[l sh] r] [|]]|e|]; auto. destruct (_ >? _); auto.
  - destruct (read_str _ _ _ _ _ _) as [[[[l f] nm] r]|e|]; auto. cbv zeta. destruct (negb _); auto.
  - destruct (read_str _ _ _ _ _ _) as [[[[l f] nm] r]|e|]; auto. cbv zeta. destruct (negb _); auto.
  - destruct p; [auto|]. destruct (q_read_varint _ _ _ _) as [[[[l sh] r] [|]]|e|]; auto. destruct (_ >? _); auto.
  - destruct (q_read_varint _ _ _ _) as [[[[l sh] r] [|]]|e|]; auto. destruct (_ >? _); auto.
  - destruct (read_str _ _ _ _ _ _) as [[[[l f] nm] r]|e|]; auto. cbv zeta. destruct (negb _); auto.
    destruct (d_op d); repeat (match goal with |- context [match ?X with Ok _ => _ | Err _ => _ | Abort => _ end] => destruct X; auto end); auto.
  - destruct (read_str _ _ _ _ _ _) as [[[[l f] nm] r]|e|]; auto. cbv zeta. destruct (negb _); auto.
    destruct (d_op d); repeat (match goal with |- context [match ?X with Ok _ => _ | Err _ => _ | Abort => _ end] => destruct X; auto end); auto.
Qed.
Lemma es_run_core d p : es_run (core d) p =
  match es_run d p with
  | ROk d' ev => ROk (core d') ev
  | RStop d' r ev => RStop (core d') r ev
  | RErr e d' ev => RErr e (core d') ev
  | RAbort => RAbort
  end.
Proof.
  unfold es_run, run. replace (measure 8 es_rank (core d) p) with (measure 8 es_rank d p) by (unfold measure, es_rank; reflexivity).
  generalize (S (measure 8 es_rank d p)). intros f. generalize false as busy.
  revert d p. induction f as [|f IH]; intros d p busy.
  - destruct p, busy; cbn; auto.
  - assert (T : turn es_step (core d) p (run_fuel es_step f) =
       match turn es_step d p (run_fuel es_step f) with
       | ROk d' ev => ROk (core d') ev
       | RStop d' r ev => RStop (core d') r ev
       | RErr e d' ev => RErr e (core d') ev
       | RAbort => RAbort end).
    { unfold turn. rewrite es_core_comm. destruct (es_step d p) as [d1 r b ev| | | |]; auto.
      rewrite IH. destruct (run_fuel es_step f d1 r b); cbn; auto. }
    destruct p, busy; cbn [run_fuel]; auto.
Qed.

(* ---- decoder histories without errors ---- *)
Lemma drun_core ops : forall w w' tr, winv w -> Forall dop_ok ops -> bad (d_ctx (w_dec w)) = false ->
  drun w ops = Some (w', tr) -> error_free tr ->
  bad (d_ctx (w_dec w')) = false /\ bytes (received ops) /\ exists ev, es_run (core (w_dec w)) (received ops) = ROk (core (w_dec w')) ev.
Proof.
  induction ops as [|o ops IH]; intros w w' tr W F B E X; cbn [drun] in E.
  { injection E as <- <-. split; [auto|]. split; [constructor|]. exists []. reflexivity. }
  inversion F as [|? ? F1 F2]; subst. destruct (dstep_winv w o W F1) as (w1 & r & E1 & W1 & _). rewrite E1 in E.
  destruct (drun w1 ops) as [[w2 tr2]|] eqn:E2; [|discriminate]. injection E as <- <-.
  assert (X2 : error_free tr2) by (intros o' e Hi; apply (X o' e); right; auto).
  assert (Xr : forall e, r <> DrErr e) by (intros e ->; apply (X o e); left; auto).
  assert (K : (match o with DEnc _ => False | _ => True end) -> core (w_dec w1) = core (w_dec w) ->
    bad (d_ctx (w_dec w2)) = false /\ bytes (received (o :: ops)) /\ exists ev, es_run (core (w_dec w)) (received (o :: ops)) = ROk (core (w_dec w2)) ev).
  { intros No Co. assert (B1 : bad (d_ctx (w_dec w1)) = false) by (change (d_ctx (w_dec w1)) with (d_ctx (core (w_dec w1))); rewrite Co; auto).
    destruct (IH _ _ _ W1 F2 B1 E2 X2) as (I1 & I2 & I3). rewrite Co in I3.
    destruct o; [destruct No|cbn [received]; auto..]. }
  destruct o as [src|id src fin|id|id| |n]; cbn [dstep dop_ok] in *.
  - pose proof (read_encoder_ok (w_dec w) src (wi_es w W) F1) as Rk. unfold read_encoder in E1, Rk. rewrite B in E1, Rk.
    destruct src as [|b src].
    { injection E1 as <- <-. destruct (IH _ _ _ W1 F2 B E2 X2) as (I1 & I2 & I3). cbn [received app]. auto. }
    cbv zeta in E1, Rk. destruct (_ >? _); [injection E1 as <- <-; destruct (Xr _ eq_refl)|].
    pose proof (es_run_bad (d_got (w_dec w) (b :: src)) (b :: src)) as Bd.
    destruct (es_run (d_got _ _) (b :: src)) as [d' ev|d' r0 ev|e d' ev|] eqn:Er; try discriminate.
    + injection E1 as <- <-. cbn [w_dec] in *. cbn [d_got d_ctx] in Bd. rewrite B in Bd.
      destruct (IH _ _ _ W1 F2 Bd E2 X2) as (I1 & I2 & ev2 & I3). cbn [received]. split; [auto|].
      split; [apply bytes_app; auto|].
      rewrite es_run_app; auto.
      * change (core (w_dec w)) with (core (d_got (w_dec w) (b :: src))).
        cbn [w_dec] in I3. rewrite es_run_core, Er, I3. eexists. reflexivity.
      * apply (wi_es w W).
    + injection E1 as <- <-. destruct (Xr _ eq_refl).
  - apply K; [auto|]. destruct F1 as [Hb Hid]. destruct (wi_str w W id Hid) as [Sk Si].
    pose proof (read_request_good (w_dec w) _ src fin (proj1 (wi_es w W)) Sk Hb) as G.
    destruct (read_request (w_dec w) (sget (w_str w) id) src fin) as [s' v rest|s' rest|s'|d' s'|e d' s'|];
      try discriminate; injection E1 as <- <-; auto.
    + destruct G as (G1 & G2 & G3 & G4).
      destruct (fin_cases _ _ _ G4 ltac:(rewrite G2, Si; auto)) as (H1 & H2 & H3 & H4 & _). cbn [w_dec]. unfold core. rewrite H1, H2, H3, H4. auto.
    + destruct (Xr _ eq_refl).
  - apply K; [auto|]. injection E1 as <- <-. auto.
  - apply K; [auto|]. unfold dec_cancel_stream in E1. destruct (_ || _); [discriminate|].
    destruct (dbuf_overflow _); injection E1 as <- <-; auto.
  - apply K; [auto|]. unfold write_decoder in E1. rewrite Z.ltb_irrefl in E1.
    destruct (_ <? _); injection E1 as <- <-; auto.
  - apply K; [auto|]. injection E1 as <- <-. auto.
Qed.
