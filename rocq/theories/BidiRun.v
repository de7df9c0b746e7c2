(* Runs of the request-stream reader: the proof-only variant against the code, the end of the
   stream, cutting the input, and when a run ends blocked. *)
From Verif Require Import Base BaseLemmas ConvModel RdVarint QpackTabModel QpackDecModel QpackHistModel HttpModel Chunk Chunk2 BidiModel BidiProofs.
Open Scope Z_scope.

Definition prefix {A} (a b : list A) : Prop := exists c, b = a ++ c.
Lemma prefix_refl A (a : list A) : prefix a a. Proof. exists []. rewrite app_nil_r; auto. Qed.
Lemma prefix_app A (c a b : list A) : prefix a b -> prefix (c ++ a) (c ++ b).
Proof. intros [d ->]. exists d. rewrite app_assoc; auto. Qed.
Lemma prefix_nil A (a : list A) : prefix [] a. Proof. exists a; auto. Qed.

(* code (first) against variant (second) *)
Definition pre_rel (r1 r2 : rres bst bev) : Prop :=
  r1 = r2 \/ exists e ev1 ev2, r1 = RErr e bst_dead ev1 /\ r2 = RErr e bst_dead ev2 /\ prefix ev1 ev2.
Lemma bstep_pre fin E s p :
  bstep false fin E s p = bstep true fin E s p \/
  exists e ev, bstep false fin E s p = b_fail e [] /\ bstep true fin E s p = b_fail e ev.
Proof.
  unfold bstep. destruct (b_rd s); auto. unfold data_step. destruct (on_data_chunk _ _) as [h ok].
  destruct ok; auto. right. do 2 eexists; split; reflexivity.
Qed.
Lemma pre_rel_rev ev r1 r2 : pre_rel r1 r2 -> pre_rel (rev_ ev r1) (rev_ ev r2).
Proof.
  intros [-> |(e & e1 & e2 & -> & -> & P)]; [left; auto|right]. cbn. do 3 eexists; repeat split. apply prefix_app; auto.
Qed.
Lemma run_fuel_pre fin E f : forall s p busy,
  pre_rel (run_fuel (bstep false fin E) f s p busy) (run_fuel (bstep true fin E) f s p busy).
Proof.
  induction f as [|f IH]; intros s p busy; [left; reflexivity|].
  assert (D : (p = [] /\ busy = false) \/ forall g : bst -> list Z -> sres bst bev, run_fuel g (S f) s p busy = turn g s p (run_fuel g f)).
  { destruct p; [destruct busy|]; auto. }
  destruct D as [[-> ->]|D]; [left; reflexivity|]. rewrite !D. unfold turn.
  destruct (bstep_pre fin E s p) as [-> |(e & ev & -> & ->)].
  - destruct (bstep true fin E s p); try (left; reflexivity). apply pre_rel_rev, IH.
  - right. do 3 eexists; repeat split. apply prefix_nil.
Qed.
Lemma b_run_pre fin E s p busy : pre_rel (b_run false fin E s p busy) (b_run true fin E s p busy).
Proof. apply run_fuel_pre. Qed.
Lemma b_read_pre E s p fin : pre_rel (b_read false E s p fin) (b_read true E s p fin).
Proof.
  unfold b_read. destruct (b_run_pre fin E s p false) as [-> |(e & e1 & e2 & -> & -> & P)]; [left; auto|].
  right. do 3 eexists; repeat split; auto.
Qed.

(* the fin flag is only looked at by the varint reader and at the end *)
Lemma rd_varint_fin rv p : rv_inv rv -> bytes p -> p <> [] -> rd_varint rv p true = rd_varint rv p false \/
  exists rv', rd_varint rv p false = VMore rv' /\ rv_left rv' <> 0 /\ rd_varint rv p true = VErr.
Proof.
  intros H B N. pose proof (rd_varint_ok rv p H B N) as V. unfold vres_ok in V.
  destruct (rd_varint rv p false); [|left; tauto|contradiction|contradiction].
  right. destruct V as (V1 & V2 & V3 & _). eauto.
Qed.
Lemma bstep_fin pre E s p : b_inv s -> bytes p -> runnable b_ce s p ->
  bstep pre true E s p = bstep pre false E s p \/
  exists e s', bstep pre true E s p = b_fail e [] /\ bstep pre false E s p = SMore s' [] /\
    forall evs, b_finish E s' evs = RErr e bst_dead evs.
Proof.
  intros Hi B R. unfold bstep. destruct (b_rd s) eqn:Rd; auto.
  - assert (N : p <> []) by (destruct R as [R|R]; [auto|unfold b_ce in R; congruence]).
    destruct (rd_varint_fin (b_rv s) p (bi_rv _ Hi) B N) as [-> |(rv' & -> & L & ->)]; [auto|].
    right. do 2 eexists; split; [reflexivity|]; split; [reflexivity|]. intros evs. unfold b_finish. cbn [b_rd b_setrd b_rv].
    destruct (Z.eqb_spec (rv_left rv') 0); [congruence|reflexivity].
  - assert (N : p <> []) by (destruct R as [R|R]; [auto|unfold b_ce in R; congruence]).
    destruct (rd_varint_fin (b_rv s) p (bi_rv _ Hi) B N) as [-> |(rv' & -> & L & ->)]; [auto|].
    right. do 2 eexists; split; [reflexivity|]; split; [reflexivity|]. reflexivity.
Qed.
Lemma run_fuel_fin E f : forall s p busy, b_inv s -> bytes p -> (busy = true -> b_ce s) ->
  run_fuel (bstep true true E) f s p busy = run_fuel (bstep true false E) f s p busy \/
  exists e s' ev, run_fuel (bstep true true E) f s p busy = RErr e bst_dead ev /\
    run_fuel (bstep true false E) f s p busy = ROk s' ev /\ forall evs, b_finish E s' evs = RErr e bst_dead evs.
Proof.
  induction f as [|f IH]; intros s p busy Hi B C; [left; reflexivity|].
  assert (D : (p = [] /\ busy = false) \/ runnable b_ce s p /\ forall g : bst -> list Z -> sres bst bev, run_fuel g (S f) s p busy = turn g s p (run_fuel g f)).
  { destruct p; [destruct busy|]; auto; right; split; auto; [right; auto|left; discriminate]. }
  destruct D as [[-> ->]|[R D]]; [left; reflexivity|]. rewrite !D. unfold turn.
  pose proof (bstep_sok E s p Hi B R) as SO.
  destruct (bstep_fin true E s p Hi B R) as [-> |(e & s' & -> & -> & F)].
  - destruct (bstep true false E s p) as [s' rest b ev| | | |]; auto.
    destruct SO as (S1 & S2 & S3 & S4 & _).
    destruct (IH s' rest b S1 S2 S4) as [-> |(e & s2 & ev2 & -> & -> & F)]; [auto|].
    right. cbn. do 3 eexists; repeat split; auto.
  - right. do 3 eexists; repeat split; auto.
Qed.
Lemma b_run_fin E s p busy : b_inv s -> bytes p -> (busy = true -> b_ce s) ->
  b_run true true E s p busy = b_run true false E s p busy \/
  exists e s' ev, b_run true true E s p busy = RErr e bst_dead ev /\
    b_run true false E s p busy = ROk s' ev /\ forall evs, b_finish E s' evs = RErr e bst_dead evs.
Proof. intros. apply run_fuel_fin; auto. Qed.
Lemma b_read_fin E s p : b_inv s -> bytes p ->
  b_read true E s p true = match b_read true E s p false with ROk s' evs => b_finish E s' evs | r => r end.
Proof.
  intros Hi B. unfold b_read. destruct (b_run_fin E s p false Hi B ltac:(discriminate)) as [-> |(e & s' & ev & -> & -> & F)].
  - destruct (b_run true false E s p false); reflexivity.
  - rewrite F. reflexivity.
Qed.

Lemma finish_rev E s e1 e2 : b_finish E s (e1 ++ e2) = rev_ e1 (b_finish E s e2).
Proof.
  unfold b_finish. destruct (b_rd s); try reflexivity. destruct (negb _); [reflexivity|].
  destruct (transit _ _ _ _); cbn; rewrite ?app_assoc; reflexivity.
Qed.
Lemma b_read_good E s p : b_inv s -> bytes p -> good b_inv (b_read true E s p false).
Proof.
  intros Hi B. unfold b_read.
  pose proof (run_good (bstep true false E) 2 b_rank b_inv b_ce (bstep_sok E) s p false Hi B ltac:(discriminate)) as G.
  unfold b_run. destruct (run _ _ _ _ _ _); auto.
Qed.
Lemma b_read_app E s a b fin : b_inv s -> bytes a -> bytes b ->
  b_read true E s (a ++ b) fin =
  match b_read true E s a false with
  | ROk s' ev => rev_ ev (b_read true E s' b fin)
  | RStop s' rest ev => RStop s' (rest ++ b) ev
  | r => r
  end.
Proof.
  intros Hi A B. assert (AB : bytes (a ++ b)) by (apply bytes_app; auto).
  assert (F : b_read true E s (a ++ b) false =
    match b_read true E s a false with
    | ROk s' ev => rev_ ev (b_read true E s' b false)
    | RStop s' rest ev => RStop s' (rest ++ b) ev
    | r => r
    end).
  { unfold b_read, b_run.
    rewrite (run_app (bstep true false E) 2 b_rank b_inv b_ce (bstep_sok E) s a b false Hi A B ltac:(discriminate)).
    destruct (run _ _ _ s a false); auto. destruct (run _ _ _ s0 b false); reflexivity. }
  destruct fin; [|exact F].
  rewrite b_read_fin by auto. rewrite F. pose proof (b_read_good E s a Hi A) as G.
  destruct (b_read true E s a false) as [s' ev|s' r ev|e s' ev|]; try reflexivity. cbn in G.
  rewrite b_read_fin by auto. destruct (b_read true E s' b false); cbn [rev_]; auto. apply finish_rev.
Qed.
Lemma b_read_nil pre E s fin : b_read pre E s [] fin = if fin then b_finish E s [] else ROk s [].
Proof. unfold b_read, b_run. rewrite run_nil. destruct fin; reflexivity. Qed.

(* after the end of the stream the state satisfies the invariant too *)
Lemma finish_good E s evs : b_inv s -> good b_inv (b_finish E s evs).
Proof.
  intros Hi. unfold b_finish. destruct (b_rd s) eqn:Rd; try apply dead_inv; auto.
  destruct (negb _); [apply dead_inv|].
  destruct (transit (e_req E) (b_ph s) (b_http s) HeMsgEnd) as [ph|e|] eqn:T; [|apply dead_inv|].
  - cbn. apply b_inv_set; auto; [apply Hi|apply Hi|]. unfold ph_ok. cbn.
    revert T. unfold transit. destruct (b_ph s); try discriminate;
    (destruct (on_remote_end_stream _); [|discriminate]; intros [= <-]; exact Logic.I).
  - cbn. pose proof (bi_ph _ Hi) as P. unfold ph_ok in P. rewrite Rd in P.
    exact (transit_no_abort _ _ _ HeMsgEnd P ltac:(discriminate) ltac:(discriminate) T).
Qed.
Lemma b_read_good' E s p fin : b_inv s -> bytes p -> good b_inv (b_read true E s p fin).
Proof.
  intros Hi B. destruct fin; [|apply b_read_good; auto]. rewrite b_read_fin by auto.
  pose proof (b_read_good E s p Hi B) as G. destruct (b_read true E s p false); auto. apply finish_good; auto.
Qed.
(* and without the hypothesis on the variant *)
Lemma b_read_good_pre pre E s p fin : b_inv s -> bytes p -> good b_inv (b_read pre E s p fin).
Proof.
  intros Hi B. destruct pre; [apply b_read_good'; auto|].
  destruct (b_read_pre E s p fin) as [-> |(e & e1 & e2 & -> & _ & _)]; [apply b_read_good'; auto|apply dead_inv].
Qed.

(* a run stops early exactly when the stream becomes blocked *)
Lemma bstep_blk pre fin E s p :
  match bstep pre fin E s p with
  | SGo s' _ _ _ | SMore s' _ => b_blk s = false -> b_blk s' = false
  | SStop s' _ _ => b_blk s' = true
  | _ => True
  end.
Proof.
  unfold bstep. destruct (b_rd s).
  - destruct (rd_varint _ _ _); cbn; auto.
  - destruct (rd_varint _ _ _) as [rv|v rest| |]; cbn; auto. unfold frame_start, b_fail.
    destruct (b_ty s =? FRAME_DATA).
    { destruct (transit _ _ _ _) as [ph|e|]; cbn; auto. destruct (v =? 0); cbn; auto. destruct (transit _ _ _ _); cbn; auto. }
    destruct (b_ty s =? FRAME_HEADERS).
    { destruct (transit _ _ _ _) as [ph|e|]; cbn; auto. destruct (v =? 0).
      - destruct (empty_headers_allowed _); cbn; auto. destruct (transit _ _ _ _); cbn; auto.
      - destruct ph; cbn; auto. }
    destruct (refused _); cbn; auto.
  - unfold data_step, b_fail. destruct (on_data_chunk _ _) as [h ok]. destruct ok; cbn; auto.
    destruct (_ =? 0); cbn; auto. destruct (transit _ _ _ _); cbn; auto.
  - unfold headers_step. cbv zeta. destruct (decode_section _ _ _ _) as [vs r].
    destruct (on_headers _ _ _ _ _ _) as [[h out] ok]. destruct ok; cbn [negb]; [|cbn; auto].
    assert (HE : forall sc d p0 rest c evs, match headers_end E s h sc d p0 rest c evs with
      | SGo s' _ _ _ | SMore s' _ => b_blk s = false -> b_blk s' = false
      | SStop s' _ _ => b_blk s' = true | _ => True end).
    { intros. unfold headers_end. destruct (match b_ph s with HpHeadersBegin => _ | HpTrailersBegin => _ | _ => _ end) as [[h' ok']|e|]; auto.
      destruct ok'; [|cbn; auto]. destruct (transit _ _ _ _); cbn; auto. }
    destruct r as [sc v rest0|sc rest0|sc|d' sc|e d' sc|]; try exact Logic.I; try (apply HE).
    + destruct (e_full E); cbn; auto.
    + destruct (_ =? 0); [apply HE|cbn; auto].
  - cbv zeta. destruct (_ =? 0); cbn; auto.
  - cbn; auto.
Qed.
Lemma run_fuel_blk pre fin E f : forall s p busy,
  match run_fuel (bstep pre fin E) f s p busy with
  | ROk s' _ => b_blk s = false -> b_blk s' = false
  | RStop s' _ _ => b_blk s' = true
  | _ => True
  end.
Proof.
  induction f as [|f IH]; intros s p busy; [destruct p, busy; cbn; auto|].
  assert (D : (p = [] /\ busy = false) \/ forall g : bst -> list Z -> sres bst bev, run_fuel g (S f) s p busy = turn g s p (run_fuel g f)).
  { destruct p; [destruct busy|]; auto. }
  destruct D as [[-> ->]|D]; [cbn; auto|]. rewrite D. unfold turn.
  pose proof (bstep_blk pre fin E s p) as B. destruct (bstep pre fin E s p) as [s' r b ev| | | |]; auto.
  specialize (IH s' r b). destruct (run_fuel (bstep pre fin E) f s' r b); cbn; auto.
Qed.
Lemma b_read_blk pre E s p fin :
  match b_read pre E s p fin with
  | ROk s' _ => b_blk s = false -> b_blk s' = false
  | RStop s' _ _ => b_blk s' = true
  | _ => True
  end.
Proof.
  unfold b_read, b_run, run. pose proof (run_fuel_blk pre fin E (S (measure 2 b_rank s p)) s p false) as R.
  destruct (run_fuel _ _ _ _ _); auto. destruct fin; auto. unfold b_finish. destruct (b_rd s0); auto.
  destruct (negb _); auto. destruct (transit _ _ _ _); cbn; auto.
Qed.
