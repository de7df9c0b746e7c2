From Verif Require Import Base BaseLemmas Tables QpackTabModel QpackTabSpec QpackTabProofs QpackDynSpec.

Definition tsize (l : list entry) : Z := tab_size (map kv l).

Lemma ent_space_kv e : ent_space e = fld_size (kv e).
Proof. unfold ent_space, table_space, fld_size, kv; cbn [fst snd]; lia. Qed.
Lemma fld_size_pos f : 32 <= fld_size f.
Proof. unfold fld_size. pose proof (zlen_nonneg _ (fst f)); pose proof (zlen_nonneg _ (snd f)); lia. Qed.
Lemma tab_size_nonneg t : 0 <= tab_size t.
Proof. induction t as [|f t IH]; cbn [tab_size]; [lia|]. pose proof (fld_size_pos f); lia. Qed.
Lemma tab_size_app a b : tab_size (a ++ b) = tab_size a + tab_size b.
Proof. induction a as [|f t IH]; cbn [tab_size app]; lia. Qed.
Lemma tab_size_len t : 32 * zlen t <= tab_size t.
Proof. induction t as [|f t IH]; cbn [tab_size]; [rewrite zlen_nil|rewrite zlen_cons; pose proof (fld_size_pos f)]; lia. Qed.
Lemma tsize_cons e l : tsize (e :: l) = ent_space e + tsize l.
Proof. unfold tsize; cbn [map tab_size]. rewrite ent_space_kv; lia. Qed.
Lemma tsize_app a b : tsize (a ++ b) = tsize a + tsize b.
Proof. unfold tsize. rewrite map_app, tab_size_app; auto. Qed.
Lemma tsize_nonneg l : 0 <= tsize l. Proof. apply tab_size_nonneg. Qed.
Lemma tsize_nil : tsize [] = 0. Proof. reflexivity. Qed.
Lemma ent_space_pos e : 32 <= ent_space e.
Proof. rewrite ent_space_kv; apply fld_size_pos. Qed.

Fixpoint fit (l : list entry) (room : Z) : list entry :=
  match l with
  | [] => []
  | e :: l' => if ent_space e <=? room then e :: fit l' (room - ent_space e) else []
  end.
Lemma fit_rfc l room : map kv (fit l room) = rfc_evict (map kv l) room.
Proof.
  revert room; induction l as [|e l IH]; intros room; cbn [fit map rfc_evict]; auto.
  rewrite ent_space_kv. destruct (fld_size (kv e) <=? room); cbn [map]; [rewrite IH|]; auto.
Qed.
Lemma fit_size l room : 0 <= room -> tsize (fit l room) <= room.
Proof.
  revert room; induction l as [|e l IH]; intros room H; cbn [fit]; [rewrite tsize_nil; lia|].
  destruct (Z.leb_spec (ent_space e) room); [|rewrite tsize_nil; lia].
  rewrite tsize_cons. specialize (IH (room - ent_space e)). lia.
Qed.
Lemma fit_all l room : tsize l <= room -> fit l room = l.
Proof.
  revert room; induction l as [|e l IH]; intros room H; cbn [fit]; auto.
  rewrite tsize_cons in H. pose proof (tsize_nonneg l).
  destruct (Z.leb_spec (ent_space e) room); [|lia]. rewrite IH by lia; auto.
Qed.
Lemma fit_last l e room : room < tsize (l ++ [e]) -> fit (l ++ [e]) room = fit l room.
Proof.
  revert room; induction l as [|x l IH]; intros room H; cbn [fit app] in *.
  - rewrite tsize_cons, tsize_nil in H. destruct (Z.leb_spec (ent_space e) room); [lia|auto].
  - rewrite tsize_cons in H. destruct (Z.leb_spec (ent_space x) room); [|auto]. rewrite IH by lia; auto.
Qed.
Lemma fit_prefix l room : exists t, l = fit l room ++ t.
Proof.
  revert room; induction l as [|e l IH]; intros room; cbn [fit]; [exists []; auto|].
  destruct (ent_space e <=? room); [|exists (e :: l); auto].
  destruct (IH (room - ent_space e)) as [t Ht]. exists t. cbn [app]. f_equal; auto.
Qed.
Lemma fit_fit l a b : a <= b -> fit (fit l b) a = fit l a.
Proof.
  revert a b; induction l as [|e l IH]; intros a b H; cbn [fit]; auto.
  destruct (Z.leb_spec (ent_space e) b); cbn [fit].
  - destruct (Z.leb_spec (ent_space e) a); auto. rewrite IH by lia; auto.
  - destruct (Z.leb_spec (ent_space e) a); [lia|auto].
Qed.
(* any prefix that contains the fitting part fits to the same *)
Lemma fit_app_big l t room : room < tsize l -> fit (l ++ t) room = fit l room.
Proof.
  revert room; induction l as [|e l IH]; intros room H; cbn [fit app].
  - rewrite tsize_nil in H. destruct t as [|e t]; cbn [fit]; auto.
    pose proof (ent_space_pos e). destruct (Z.leb_spec (ent_space e) room); [lia|auto].
  - rewrite tsize_cons in *. destruct (Z.leb_spec (ent_space e) room); [|auto].
    rewrite IH by lia; auto.
Qed.

Lemma evict_loop_spec l : forall space cap, 0 <= cap - space ->
  evict_loop (rev l) (tsize l) space cap = Ok (rev (fit l (cap - space)), tsize (fit l (cap - space))).
Proof.
  induction l as [|e l IH] using rev_ind; intros space cap H.
  - cbn [rev evict_loop fit]. destruct (Z.gtb_spec (tsize [] + space) cap); [rewrite tsize_nil in *; lia|]. reflexivity.
  - rewrite rev_app_distr. cbn [rev app evict_loop]. rewrite tsize_app, tsize_cons, tsize_nil.
    destruct (Z.gtb_spec (tsize l + (ent_space e + 0) + space) cap).
    + replace (tsize l + (ent_space e + 0) - ent_space e) with (tsize l) by lia.
      rewrite IH by auto. rewrite fit_last; [auto|]. rewrite tsize_app, tsize_cons, tsize_nil; lia.
    + rewrite fit_all by (rewrite tsize_app, tsize_cons, tsize_nil; lia).
      rewrite rev_app_distr. cbn [rev app]. rewrite tsize_app, tsize_cons, tsize_nil; auto.
Qed.

(* ---- structure of the table ---- *)
Fixpoint tab_at (next sum : Z) (l : list entry) : Prop :=
  match l with
  | [] => 0 <= next
  | e :: l' => e_abs e = next - 1 /\ e_sum e = sum - ent_space e /\
               e_token e = lookup_token (e_name e) /\ bytes (e_name e) /\ bytes (e_value e) /\
               tab_at (next - 1) (sum - ent_space e) l'
  end.
Lemma tab_at_len l : forall next sum, tab_at next sum l -> zlen l <= next.
Proof.
  induction l as [|e l IH]; intros next sum; cbn [tab_at]; [rewrite zlen_nil; auto|].
  intros (_ & _ & _ & _ & _ & H). apply IH in H. rewrite zlen_cons; lia.
Qed.
Lemma tab_at_prefix a b : forall next sum, tab_at next sum (a ++ b) -> tab_at next sum a.
Proof.
  induction a as [|e a IH]; intros next sum; cbn [tab_at app].
  - intros H. apply tab_at_len in H. pose proof (zlen_nonneg _ b); lia.
  - intros (? & ? & ? & ? & ? & H). repeat split; eauto.
Qed.
Lemma tab_at_nth l : forall next sum i e, tab_at next sum l -> nth_error l i = Some e ->
  e_abs e = next - 1 - Z.of_nat i /\ e_token e = lookup_token (e_name e) /\
  sum - e_sum e = tsize (firstn (S i) l) /\ bytes (e_name e) /\ bytes (e_value e).
Proof.
  induction l as [|x l IH]; intros next sum i e; cbn [tab_at]; [destruct i; discriminate|].
  intros (H1 & H2 & H3 & H4 & H5 & H) E. destruct i as [|i]; cbn [nth_error] in E.
  - injection E as <-. cbn [firstn]. rewrite tsize_cons, tsize_nil. repeat split; auto; lia.
  - destruct (IH _ _ _ _ H E) as (A & B & C & D & F). cbn [firstn]. rewrite tsize_cons.
    cbn [firstn] in C. repeat split; auto; lia.
Qed.

Record ctx_wf (c : ctx) : Prop := {
  wf_size : dtable_size c = tsize (dtable c);
  wf_tab : tab_at (next_absidx c) (dtable_sum c) (dtable c);
  wf_cap : 0 <= max_cap c <= hard_max c
}.
Definition ctx_ok (c : ctx) : Prop := ctx_wf c /\ dtable_size c <= max_cap c.

Lemma ctx_ok_init hard blocked : 0 <= hard -> ctx_ok (ctx_init hard blocked).
Proof. intros H. split; [constructor|]; cbn; try lia; auto. Qed.

Lemma dtable_add_spec c name value token hash :
  ctx_wf c -> token = lookup_token name -> bytes name -> bytes value ->
  fld_size (name, value) <= max_cap c ->
  exists c', dtable_add c name value token hash = Ok c' /\ ctx_ok c' /\
    dtable c' = mk_ent name value token (dtable_sum c) (next_absidx c) hash
                :: fit (dtable c) (max_cap c - fld_size (name, value)) /\
    next_absidx c' = next_absidx c + 1 /\ max_cap c' = max_cap c /\ hard_max c' = hard_max c /\
    bad c' = bad c /\ max_blocked c' = max_blocked c /\ dtable_sum c' = dtable_sum c + fld_size (name, value).
Proof.
  intros W Ht Hn Hv Hs. unfold dtable_add.
  assert (Es : table_space (zlen name) (zlen value) = fld_size (name, value))
    by (unfold table_space, fld_size; cbn [fst snd]; lia).
  rewrite Es. destruct (Z.gtb_spec (fld_size (name, value)) (max_cap c)); [lia|].
  rewrite (wf_size c W), evict_loop_spec by lia.
  eexists; split; [reflexivity|]. cbn [dtable next_absidx max_cap hard_max bad max_blocked dtable_sum]. rewrite rev_involutive.
  split; [|repeat split; auto].
  pose proof (fit_size (dtable c) (max_cap c - fld_size (name, value)) ltac:(lia)) as F.
  destruct (fit_prefix (dtable c) (max_cap c - fld_size (name, value))) as [t Ep].
  split; [constructor|]; cbn [dtable next_absidx max_cap hard_max bad max_blocked dtable_sum dtable_size tab_at e_abs e_sum e_token e_name e_value].
  - rewrite tsize_cons, ent_space_kv. unfold kv; cbn [e_name e_value]. lia.
  - repeat split; auto; try lia.
    + rewrite ent_space_kv; unfold kv; cbn [e_name e_value]. lia.
    + rewrite ent_space_kv; unfold kv; cbn [e_name e_value].
      replace (next_absidx c + 1 - 1) with (next_absidx c) by lia.
      replace (dtable_sum c + fld_size (name, value) - fld_size (name, value)) with (dtable_sum c) by lia.
      eapply tab_at_prefix. rewrite <- Ep. apply (wf_tab c W).
  - apply (wf_cap c W).
  - lia.
Qed.

Lemma dtable_get_some c i : ctx_wf c -> next_absidx c - zlen (dtable c) <= i < next_absidx c ->
  exists e, dtable_get c i = Some e /\ nth_error (dtable c) (Z.to_nat (next_absidx c - i - 1)) = Some e /\
    e_abs e = i /\ e_token e = lookup_token (e_name e).
Proof.
  intros W H. unfold dtable_get.
  destruct (Z.gtb_spec (next_absidx c) i); [|lia].
  destruct (Z.ltb_spec (next_absidx c - i - 1) (zlen (dtable c))); [|lia]. cbn [andb].
  destruct (nth_error (dtable c) (Z.to_nat (next_absidx c - i - 1))) as [e|] eqn:E.
  - destruct (tab_at_nth _ _ _ _ _ (wf_tab c W) E) as (A & B & _). exists e; repeat split; auto. lia.
  - apply nth_error_None in E. unfold zlen in *. lia.
Qed.
Lemma dtable_get_inv c i e : ctx_wf c -> dtable_get c i = Some e ->
  next_absidx c - zlen (dtable c) <= i < next_absidx c /\
  nth_error (dtable c) (Z.to_nat (next_absidx c - i - 1)) = Some e /\ e_abs e = i /\
  e_token e = lookup_token (e_name e) /\ bytes (e_name e) /\ bytes (e_value e).
Proof.
  intros W. unfold dtable_get.
  destruct (Z.gtb_spec (next_absidx c) i); [|discriminate].
  destruct (Z.ltb_spec (next_absidx c - i - 1) (zlen (dtable c))); [|discriminate]. cbn [andb]. intros E.
  destruct (tab_at_nth _ _ _ _ _ (wf_tab c W) E) as (A & B & _ & D & F). repeat split; auto; lia.
Qed.
