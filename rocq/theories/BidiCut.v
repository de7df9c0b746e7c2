(* Histories of a request stream: invariant, cut independence (C24). *)
From Verif Require Import Base BaseLemmas ConvModel RdVarint QpackIntModel QpackTabModel QpackTabProofs QpackDecModel QpackDecProofs
  QpackHistModel QpackHistProofs HttpModel Chunk Chunk2 BidiModel BidiHist BidiProofs BidiRun SecSuffix BidiSpec.
Open Scope Z_scope.

(* --- the decoder --- *)
Lemma dec_add_bad c n v t c' : dec_add c n v t = Ok c' -> bad c' = bad c.
Proof.
  unfold dec_add, dtable_add. cbv zeta. destruct (_ >? _); [discriminate|]. destruct (evict_loop _ _ _ _) as [[l s]|e|]; try discriminate.
  intros H; injection H as <-. reflexivity.
Qed.
Lemma dec_set_cap_bad c n c' : dec_set_cap c n = Ok c' -> bad c' = bad c.
Proof.
  unfold dec_set_cap. destruct (_ >? _); [discriminate|].
  destruct (evict_loop _ _ _ _) as [[l s]|e|]; try discriminate.
  intros H; injection H as <-. reflexivity.
Qed.
Lemma es_step_bad d p :
  match es_step d p with
  | SGo d' _ _ _ | SMore d' _ | SStop d' _ _ => bad (d_ctx d') = bad (d_ctx d)
  | _ => True
  end.
Proof.
  assert (DI : forall r c', dec_indexed_add (d_ctx d) r = Ok c' -> bad c' = bad (d_ctx d)).
  { intros r c'. unfold dec_indexed_add. destruct (r_dynamic r).
    - destruct (dtable_get _ _); [apply dec_add_bad|discriminate].
    - destruct (stable_get _) as [[[? ?] ?]|]; [apply dec_add_bad|discriminate]. }
  assert (DD : forall r c', dec_duplicate_add (d_ctx d) r = Ok c' -> bad c' = bad (d_ctx d)).
  { intros r c'. unfold dec_duplicate_add.
    destruct (dtable_get _ _); [apply dec_add_bad|discriminate]. }
  unfold es_step. destruct (d_state d) eqn:St.
  - destruct p as [|b p]; [auto|]. cbv zeta.
    repeat (match goal with |- context [if ?X then _ else _] => destruct X end); cbn; auto.
  - unfold es_read_index. destruct (q_read_varint _ _ _ _) as [[[[l sh] r] [|]]|e|]; cbn; auto.
    destruct (d_op d); cbn.
    + destruct (rel2abs _ _); cbn; auto.
    + destruct (rel2abs _ _); cbn; auto.
    + destruct (rel2abs _ _) as [r'|e|]; cbn; auto. destruct (dec_duplicate_add _ _) eqn:E; cbn; eauto.
    + destruct (dec_set_cap _ _) eqn:E; cbn; auto. eapply dec_set_cap_bad; eauto.
  - destruct p as [|b p]; [auto|]. unfold es_read_namelen.
    destruct (q_read_varint _ _ _ _) as [[[[l sh] r] [|]]|e|]; cbn; auto. destruct (_ >? _); cbn; auto.
  - unfold es_read_namelen.
    destruct (q_read_varint _ _ _ _) as [[[[l sh] r] [|]]|e|]; cbn; auto. destruct (_ >? _); cbn; auto.
  - unfold es_read_name. destruct (read_str _ _ _ _ _ _) as [[[[l f] nm] r]|e|]; cbn; auto. destruct (negb _); cbn; auto.
  - unfold es_read_name. destruct (read_str _ _ _ _ _ _) as [[[[l f] nm] r]|e|]; cbn; auto. destruct (negb _); cbn; auto.
  - destruct p as [|b p]; [auto|]. unfold es_read_valuelen.
    destruct (q_read_varint _ _ _ _) as [[[[l sh] r] [|]]|e|]; cbn; auto. destruct (_ >? _); cbn; auto.
  - unfold es_read_valuelen.
    destruct (q_read_varint _ _ _ _) as [[[[l sh] r] [|]]|e|]; cbn; auto. destruct (_ >? _); cbn; auto.
  - unfold es_read_value. destruct (read_str _ _ _ _ _ _) as [[[[l f] nm] r]|e|]; cbn; auto. destruct (negb _); cbn; auto.
    destruct (d_op d); cbn; auto; [destruct (dec_indexed_add _ _) eqn:E|destruct (dec_literal_add _ _) eqn:E]; cbn; eauto.
    eapply dec_add_bad; exact E.
  - unfold es_read_value. destruct (read_str _ _ _ _ _ _) as [[[[l f] nm] r]|e|]; cbn; auto. destruct (negb _); cbn; auto.
    destruct (d_op d); cbn; auto; [destruct (dec_indexed_add _ _) eqn:E|destruct (dec_literal_add _ _) eqn:E]; cbn; eauto.
    eapply dec_add_bad; exact E.
Qed.
Lemma es_run_bad d p : match es_run d p with ROk d' _ => bad (d_ctx d') = bad (d_ctx d) | _ => True end.
Proof.
  unfold es_run, run. generalize (S (measure 8 es_rank d p)). intros f. generalize false as busy.
  revert d p. induction f as [|f IH]; intros d p busy.
  - destruct p, busy; cbn; auto.
  - assert (D : (p = [] /\ busy = false) \/ run_fuel es_step (S f) d p busy = turn es_step d p (run_fuel es_step f)).
    { destruct p; [destruct busy|]; auto. }
    destruct D as [[-> ->]| ->]; [reflexivity|]. unfold turn. pose proof (es_step_bad d p) as B.
    destruct (es_step d p) as [d' r b ev| | | |]; auto. specialize (IH d' r b).
    destruct (run_fuel es_step f d' r b); cbn [rev_]; auto. congruence.
Qed.
Definition dec_ok (d : dec) : Prop := es_inv d /\ bad (d_ctx d) = false.
Lemma evolves_ok d d' : dec_evolves d d' -> dec_ok d -> dec_ok d' /\ ctx_le (d_ctx d) (d_ctx d').
Proof.
  induction 1 as [d|d d1 src n d' B H _ IH|d d1 s d' B H _ IH|d d1 id d' H _ IH|d d1 n l d' H _ IH|d n d' _ IH];
    intros [Hi Hb]; [split; [split; auto|apply ctx_le_refl]|..];
    (assert (K : dec_ok d1 /\ ctx_le (d_ctx d) (d_ctx d1)) || assert (K : dec_ok (dec_set_max_concurrent d n) /\ ctx_le (d_ctx d) (d_ctx (dec_set_max_concurrent d n))));
    try (destruct K as [K1 K2]; destruct (IH K1) as [A1 A2]; split; [auto|exact (ctx_le_trans _ _ _ K2 A2)]).
  - pose proof (read_encoder_ok d src Hi B) as R. rewrite H in R. destruct R as (R1 & _ & _ & _ & R5 & _).
    split; [|auto]. split; [auto|]. unfold read_encoder in H. rewrite Hb in H. destruct src as [|x src]; [congruence|].
    cbv zeta in H. destruct (_ >? _); [congruence|].
    pose proof (es_run_bad (d_got d (x :: src)) (x :: src)) as EB.
    destruct (es_run _ _); try congruence. injection H as -> _. rewrite EB. exact Hb.
  - destruct (fin_cases d s d1 H B) as (F1 & F2 & F3 & F4 & F5 & F6).
    split; [|rewrite F1; apply ctx_le_refl]. split; [|rewrite F1; auto].
    unfold es_inv, op_val in *. rewrite F1, F2, F3, F4. exact Hi.
  - unfold dec_cancel_stream in H. destruct (_ || _); [discriminate|]. destruct (dbuf_overflow d); [discriminate|].
    apply ok_inj in H. subst d1. split; [split; [exact Hi|exact Hb]|apply ctx_le_refl].
  - unfold write_decoder in H. destruct (_ <? _); [discriminate|].
    destruct (_ <? _); apply ok_inj in H; injection H as <- _; (split; [split; [exact Hi|exact Hb]|apply ctx_le_refl]).
  - split; [split; [exact Hi|exact Hb]|apply ctx_le_refl].
Qed.

(* --- buffers --- *)
Definition bufs_ok (q : list ibuf) : Prop := Forall (fun b => fst b <> [] /\ bytes (fst b)) q.
Lemma inbytes_nil q : bufs_ok q -> (inbytes q = [] <-> q = []).
Proof.
  intros H. split; [|intros ->; reflexivity]. destruct H as [|[w r] q [N _] _]; [auto|]. cbn. intros H. destruct w; [cbn in N; congruence|discriminate].
Qed.
Lemma inbytes_bytes q : bufs_ok q -> bytes (inbytes q).
Proof. unfold inbytes. induction 1 as [|[w r] q [_ B] _ IH]; [constructor|]. cbn. apply bytes_app; auto. Qed.
Lemma in_chunks_ok f : forall d, bytes d -> bufs_ok (in_chunks f d).
Proof.
  induction f as [|f IH]; intros d B; [constructor|]. destruct d as [|x d]; [constructor|].
  cbn [in_chunks]. constructor; [|apply IH, bytes_skipn; auto]. cbn [fst]. split; [|apply bytes_firstn; auto].
  assert (L : INBUF <> 0%nat) by (unfold INBUF; lia). destruct INBUF; [congruence|discriminate].
Qed.
Lemma in_chunks_bytes f : forall d, (length d <= f)%nat -> inbytes (in_chunks f d) = d.
Proof.
  unfold inbytes. induction f as [|f IH]; intros d L; [destruct d; [auto|cbn in L; lia]|]. destruct d as [|x d]; [reflexivity|].
  cbn [in_chunks map fst concat]. rewrite IH; [apply firstn_skipn|].
  rewrite skipn_length. cbn [length] in *. assert (INBUF <> 0%nat) by (unfold INBUF; lia). lia.
Qed.
Lemma buffer_ok q : forall d, bufs_ok q -> bytes d -> bufs_ok (buffer_data q d) /\ inbytes (buffer_data q d) = inbytes q ++ d.
Proof.
  induction q as [|[w r] q IH]; intros d Q B.
  - cbn [buffer_data]. split; [apply in_chunks_ok; auto|apply in_chunks_bytes; auto].
  - inversion Q as [|? ? [N W] Q']; subst. cbn [fst] in *. cbn [buffer_data]. destruct q as [|b q].
    + set (n := Z.to_nat (Z.min (zlen d) r)). split.
      * constructor; [|apply in_chunks_ok, bytes_skipn; auto]. cbn [fst]. split; [destruct w; [congruence|discriminate]|].
        apply bytes_app; split; [auto|apply bytes_firstn; auto].
      * change (inbytes ((w ++ firstn n d, r - Z.of_nat n) :: in_chunks (length d) (skipn n d)))
          with ((w ++ firstn n d) ++ inbytes (in_chunks (length d) (skipn n d))).
        rewrite in_chunks_bytes by (rewrite skipn_length; lia).
        unfold inbytes. cbn. rewrite app_nil_r, <- app_assoc, firstn_skipn. reflexivity.
    + destruct (IH d Q' B) as [I1 I2]. split; [constructor; auto|].
      change (w ++ inbytes (buffer_data (b :: q) d) = (w ++ inbytes (b :: q)) ++ d). rewrite I2, app_assoc. reflexivity.
Qed.

(* --- a stream with the buffered bytes in one piece --- *)
Definition norm (x : rx) : rx :=
  mk_rx (x_id x) (x_st x) [(inbytes (x_inq x), 0)] (x_shut x) (x_eof x) (x_closed x) (x_ret x) (x_def x).
Definition nrm (r : xres) : xres := match r with XOk x e => XOk (norm x) e | XGone x e => XGone (norm x) e | r => r end.
Lemma inbytes1 w r : inbytes [(w, r)] = w. Proof. unfold inbytes. cbn. apply app_nil_r. Qed.
Lemma norm_norm x : norm (norm x) = norm x.
Proof. unfold norm. cbn [x_inq x_id x_st x_shut x_eof x_closed x_ret x_def]. rewrite inbytes1. reflexivity. Qed.
Lemma norm_same x y : norm x = norm y <-> same_rx x y.
Proof.
  unfold norm, same_rx. split.
  - intros H. injection H as A1 A2 A3 A4 A5 A6 A7 A8. auto 12.
  - intros (A1 & A2 & A3 & A4 & A5 & A6 & A7 & A8). congruence.
Qed.
Definition put (x : rx) (s : bst) (eof : bool) (buf : list Z) (ret def : Z) : rx :=
  mk_rx (x_id x) s [(buf, 0)] (x_shut x) eof (x_closed x) (x_ret x + ret) (x_def x + def).
Definition a_recv (E : benv) (x : rx) (src : list Z) (fin : bool) : xres :=
  let s := x_st x in let buf := inbytes (x_inq x) in
  if (zlen src =? 0) && negb fin then XOk (norm x) []
  else if x_shut x then XOk (put x s (x_eof x || fin) buf (zlen src) 0) []
  else if b_blk s then XOk (put x s (x_eof x || fin) (buf ++ src) 0 0) []
  else match b_read true E s src fin with
       | ROk s' ev => XOk (put x s' (x_eof x || fin) buf (b_cons s' - b_cons s) 0) ev
       | RStop s' rest ev => XOk (put x s' (x_eof x || fin) (buf ++ rest) (b_cons s' - b_cons s) 0) ev
       | RErr e _ ev => XErr e ev
       | RAbort => XAbort
       end.
Definition a_proc (E : benv) (x : rx) : xres :=
  let s := x_st x in let buf := inbytes (x_inq x) in
  if zlen buf =? 0 then XOk (norm x) []
  else if x_shut x then XOk (put x s (x_eof x) [] 0 (zlen buf)) []
  else match b_read true E s buf (x_eof x) with
       | ROk s' ev => XOk (put x s' (x_eof x) [] 0 (b_cons s' - b_cons s)) ev
       | RStop s' rest ev => XOk (put x s' (x_eof x) rest 0 (b_cons s' - b_cons s)) ev
       | RErr e _ ev => XErr e ev
       | RAbort => XAbort
       end.
Record x_inv (x : rx) : Prop := mk_xinv {
  xi_st : b_inv (x_st x);
  xi_q : bufs_ok (x_inq x);
  xi_blk : b_blk (x_st x) = false -> x_inq x = [];
  xi_id : 0 <= x_id x < 2 ^ 62 }.
Definition r_inv (r : xres) : Prop := match r with XOk x _ => x_inv x | XGone _ _ | XErr _ _ => True | XAbort => False end.

Lemma recv_abs E x src fin : x_inv x -> bytes src ->
  nrm (recv true E x src fin) = a_recv E x src fin /\ r_inv (recv true E x src fin).
Proof.
  intros [I1 I2 I3 I4] B. unfold recv, a_recv, read_bidi. cbv zeta.
  destruct ((zlen src =? 0) && negb fin) eqn:E0; [split; [reflexivity|constructor; auto]|].
  cbn [x_shut x_st x_inq x_eof x_closed x_ret x_def x_id].
  destruct (x_shut x) eqn:Sh.
  { split; [|constructor; auto]. cbn [nrm]. unfold norm, put, x_add. cbn [x_shut x_st x_inq x_eof x_closed x_ret x_def x_id]. rewrite Sh. reflexivity. }
  destruct (b_blk (x_st x)) eqn:Bk.
  { destruct (zlen src =? 0) eqn:Z0.
    - apply Z.eqb_eq in Z0. apply zlen_0 in Z0. subst src. rewrite app_nil_r. split; [|constructor; cbn; auto; congruence].
      cbn [nrm]. unfold norm, put, x_add. cbn. rewrite ?Sh. reflexivity.
    - destruct (buffer_ok (x_inq x) src I2 B) as [Q1 Q2]. split; [|constructor; cbn; auto; congruence].
      cbn [nrm]. unfold norm, put, x_add. cbn [x_shut x_st x_inq x_eof x_closed x_ret x_def x_id]. rewrite Q2, Sh. reflexivity. }
  rewrite (I3 eq_refl). change (inbytes []) with (@nil Z). change (buffered_len []) with 0. cbn [app].
  pose proof (b_read_good' E (x_st x) src fin I1 B) as G. pose proof (b_read_blk true E (x_st x) src fin) as K.
  destruct (b_read true E (x_st x) src fin) as [s' ev|s' rest ev|e s' ev|]; cbn [good] in G.
  - split; [|constructor; cbn; auto; first [constructor|congruence]]. cbn [nrm]. unfold norm, put, x_add. cbn. rewrite ?Sh. reflexivity.
  - destruct G as [G1 G2]. cbn [Z.eqb andb]. destruct (zlen rest =? 0) eqn:Z0; cbn [negb andb].
    + apply Z.eqb_eq in Z0. apply zlen_0 in Z0. subst rest. split; [|constructor; cbn; auto; first [constructor|congruence]].
      cbn [nrm]. unfold norm, put, x_add. cbn. rewrite ?Sh. reflexivity.
    + destruct (buffer_ok [] rest ltac:(constructor) G2) as [Q1 Q2]. split; [|constructor; cbn [x_st x_inq x_add]; auto; congruence].
      cbn [nrm]. unfold norm, put, x_add. cbn [x_shut x_st x_inq x_eof x_closed x_ret x_def x_id]. rewrite Q2, Sh. reflexivity.
  - split; reflexivity.
  - contradiction.
Qed.

Lemma x_evs_nil r : x_evs [] r = r. Proof. destruct r; reflexivity. Qed.
Lemma x_evs_app a b r : x_evs (a ++ b) r = x_evs a (x_evs b r).
Proof. destruct r; cbn; rewrite ?app_assoc; reflexivity. Qed.
Lemma nrm_evs ev r : nrm (x_evs ev r) = x_evs ev (nrm r). Proof. destruct r; reflexivity. Qed.
Lemma r_inv_evs ev r : r_inv r -> r_inv (x_evs ev r). Proof. destruct r; auto. Qed.
Lemma skip_all_len (buf : list Z) : skipn (Z.to_nat (zlen buf)) buf = [].
Proof. rewrite zlen_length. apply skipn_all. Qed.
Lemma zlen0_nil (p : list Z) : (zlen p =? 0) = true -> p = [].
Proof. intros H. apply zlen_0. apply Z.eqb_eq; auto. Qed.
Lemma zlen0_cons (p : list Z) : p <> [] -> (zlen p =? 0) = false.
Proof. intros H. apply Z.eqb_neq. intros L. apply zlen_0 in L. auto. Qed.
Definition mkx (x : rx) (s : bst) (q : list ibuf) (def : Z) : rx :=
  mk_rx (x_id x) s q (x_shut x) (x_eof x) (x_closed x) (x_ret x) (x_def x + def).
Lemma rx_eq a b c d e f g h a' b' c' d' e' f' g' h' :
  a = a' -> b = b' -> c = c' -> d = d' -> e = e' -> f = f' -> g = g' -> h = h' ->
  mk_rx a b c d e f g h = mk_rx a' b' c' d' e' f' g' h'.
Proof. intros; subst; reflexivity. Qed.
Lemma pb_step f E x buf room q : x_inq x = (buf, room) :: q -> buf <> [] -> b_blk (x_st x) = false -> x_shut x = false ->
  process_blocked true (S f) E x =
  match b_read true E (x_st x) buf ((match q with [] => true | _ => false end) && x_eof x) with
  | ROk s' ev => x_evs ev (process_blocked true f E (mkx x s' q (b_cons s' - b_cons (x_st x))))
  | RStop s' rest ev => XOk (mkx x s' (if zlen rest =? 0 then q else (rest, room) :: q) (b_cons s' - b_cons (x_st x))) ev
  | RErr e _ ev => XErr e ev
  | RAbort => XAbort
  end.
Proof.
  intros Q N Bk Sh. cbn [process_blocked]. rewrite Q. unfold read_bidi. cbv zeta. rewrite Sh, Bk.
  pose proof (b_read_blk true E (x_st x) buf ((match q with [] => true | _ => false end) && x_eof x)) as K.
  pose proof (b_read_suf true E (x_st x) buf ((match q with [] => true | _ => false end) && x_eof x)) as SF.
  destruct (b_read true E (x_st x) buf _) as [s' ev|s' rest ev|e s' ev|]; auto.
  - cbn [x_inq]. rewrite Q. rewrite skip_all_len. rewrite zlen_nil. cbn [Z.eqb].
    cbn [x_add x_st x_inq x_id x_shut x_eof x_closed x_ret x_def]. rewrite (K Bk).
    f_equal. f_equal. unfold mkx, x_add. cbn. apply rx_eq; auto; try lia; rewrite ?Sh; auto.
  - assert (BL : buffered_len (x_inq x) =? 0 = false).
    { rewrite Q. unfold buffered_len. apply zlen0_cons. unfold inbytes. cbn. destruct buf; [congruence|discriminate]. }
    rewrite Q in BL. rewrite Q, BL, andb_false_r. cbn [x_inq]. 
    assert (LL : skipn (Z.to_nat (zlen buf - zlen rest)) buf = rest).
    { rewrite (suf_skip _ _ SF) at 2. f_equal. unfold zlen. lia. }
    rewrite LL. cbn [x_add x_st x_inq x_id x_shut x_eof x_closed x_ret x_def]. rewrite K.
    f_equal. unfold mkx, x_add. cbn. apply rx_eq; auto; try lia; rewrite ?Sh; auto.
Qed.
Lemma proc_abs E q : forall x f, x_inq x = q -> bufs_ok q -> b_inv (x_st x) -> b_blk (x_st x) = false ->
  0 <= x_id x < 2 ^ 62 -> (length q < f)%nat ->
  nrm (process_blocked true f E x) = a_proc E x /\ r_inv (process_blocked true f E x).
Proof.
  induction q as [|[buf room] q IH]; intros x f Q Qk Hi Bk Id F.
  - destruct f as [|f]; [cbn in F; lia|]. cbn [process_blocked]. rewrite Q. cbn [nrm r_inv].
    unfold a_proc. rewrite Q. change (inbytes []) with (@nil Z). rewrite zlen_nil. cbn [Z.eqb]. split; [reflexivity|].
    constructor; auto. rewrite Q; constructor.
  - destruct f as [|f]; [lia|]. inversion Qk as [|? ? [N Bb] Qk']; subst. cbn [fst] in *.
    assert (IB : inbytes (x_inq x) = buf ++ inbytes q) by (rewrite Q; reflexivity).
    assert (NB : (zlen (buf ++ inbytes q) =? 0) = false) by (apply zlen0_cons; destruct buf; [congruence|discriminate]).
    destruct (x_shut x) eqn:Sh.
    + cbn [process_blocked]. rewrite Q. unfold read_bidi. cbv zeta. rewrite Sh, Q, skip_all_len, zlen_nil. cbn [Z.eqb].
      cbn [x_add x_st]. rewrite Bk. rewrite x_evs_nil.
      set (x2 := mk_rx (x_id x) (x_st x) q (x_shut x) (x_eof x) (x_closed x) (x_ret x + 0) (x_def x + zlen buf)).
      destruct (IH x2 f) as [J1 J2]; auto; [cbn [length] in F; lia|].
      change (x_add x q 0 (zlen buf)) with x2. rewrite J1. split; [|exact J2].
      unfold a_proc. cbv zeta. change (x_inq x2) with q. change (x_shut x2) with (x_shut x). rewrite IB, NB, Sh.
      destruct (zlen (inbytes q) =? 0) eqn:Z0.
      * apply zlen0_nil in Z0. f_equal. unfold norm, put. cbn. apply rx_eq; auto; try lia; [f_equal; f_equal; exact Z0|rewrite Z0, app_nil_r; lia].
      * f_equal. unfold put. cbn. rewrite zlen_app. apply rx_eq; auto; try lia.
    + rewrite (pb_step f E x buf room q Q N Bk Sh).
      unfold a_proc. cbv zeta. rewrite IB, NB, Sh.
      pose proof (inbytes_bytes q Qk') as Bq.
      destruct q as [|b1 q1].
      * cbn [andb]. change (inbytes []) with (@nil Z). rewrite app_nil_r.
        pose proof (b_read_good' E (x_st x) buf (x_eof x) Hi Bb) as G. pose proof (b_read_blk true E (x_st x) buf (x_eof x)) as K.
        destruct (b_read true E (x_st x) buf (x_eof x)) as [s' ev|s' rest ev|e s' ev|]; cbn [good] in G; [..|contradiction].
        -- destruct f as [|f]; [cbn in F; lia|]. cbn [process_blocked mkx x_inq x_evs nrm r_inv]. rewrite app_nil_r. split.
           ++ f_equal. unfold norm, put, mkx. cbn. rewrite Sh. apply rx_eq; auto; try lia.
           ++ constructor; cbn; auto; try constructor.
        -- destruct G as [G1 G2]. split.
           ++ cbn [nrm]. f_equal. destruct (zlen rest =? 0) eqn:Z0.
              ** apply zlen0_nil in Z0. subst. unfold norm, put, mkx. cbn. rewrite Sh. apply rx_eq; auto; try lia.
              ** unfold norm, put, mkx. cbn [x_inq x_st x_id x_shut x_eof x_closed x_ret x_def]. rewrite inbytes1, Sh. apply rx_eq; auto; try lia.
           ++ constructor; cbn [mkx x_inq x_st x_id]; auto; [|congruence].
              destruct (zlen rest =? 0) eqn:Z0; [constructor|]. constructor; [|constructor]. split; [|auto]. intros H. cbn in H. subst. discriminate.
        -- split; [reflexivity|exact Logic.I].
      * cbn [andb]. rewrite (b_read_app E (x_st x) buf _ (x_eof x) Hi Bb Bq).
        pose proof (b_read_good' E (x_st x) buf false Hi Bb) as G. pose proof (b_read_blk true E (x_st x) buf false) as K.
        destruct (b_read true E (x_st x) buf false) as [s' ev|s' rest ev|e s' ev|]; cbn [good] in G; [..|contradiction].
        -- set (x2 := mkx x s' (b1 :: q1) (b_cons s' - b_cons (x_st x))).
           destruct (IH x2 f) as [J1 J2]; auto; [cbn [length] in *; lia|].
           rewrite nrm_evs, J1. split; [|apply r_inv_evs; exact J2].
           unfold a_proc. cbv zeta. change (x_inq x2) with (b1 :: q1). change (x_shut x2) with (x_shut x).
           change (x_st x2) with s'. change (x_eof x2) with (x_eof x). rewrite Sh.
           assert (NQ : (zlen (inbytes (b1 :: q1)) =? 0) = false).
           { apply zlen0_cons. intros H. apply (inbytes_nil _ Qk') in H. discriminate. }
           rewrite NQ. destruct (b_read true E s' (inbytes (b1 :: q1)) (x_eof x)); cbn [rev_ x_evs]; auto;
             (f_equal; unfold put, x2, mkx; cbn; rewrite Sh; apply rx_eq; auto; try lia).
        -- destruct G as [G1 G2]. split.
           ++ cbn [nrm]. f_equal. destruct (zlen rest =? 0) eqn:Z0.
              ** apply zlen0_nil in Z0. subst. unfold norm, put, mkx. cbn [x_inq x_st x_id x_shut x_eof x_closed x_ret x_def app]. rewrite Sh. apply rx_eq; auto; try lia.
              ** unfold norm, put, mkx. cbn [x_inq x_st x_id x_shut x_eof x_closed x_ret x_def]. rewrite Sh. apply rx_eq; auto; try lia.
           ++ constructor; cbn [mkx x_inq x_st x_id]; auto; [|congruence].
              destruct (zlen rest =? 0) eqn:Z0; [auto|]. constructor; [|auto]. split; [|auto]. intros H. cbn in H. subst. discriminate.
        -- split; [reflexivity|exact Logic.I].
Qed.

(* --- one operation --- *)
Definition a_resume (E : benv) (x : rx) : xres :=
  match a_proc E x with
  | XOk x' evs => if negb (b_blk (x_st x')) && x_closed x' then nrm (x_delete x' evs) else XOk x' evs
  | r => r
  end.
Lemma a_recv_same E x y src fin : same_rx x y -> a_recv E x src fin = a_recv E y src fin.
Proof.
  intros S. pose proof (proj2 (norm_same x y) S) as N. destruct S as (A1 & A2 & A3 & A4 & A5 & A6 & A7 & A8).
  unfold a_recv, put. rewrite N, A1, A2, A3, A4, A5, A6, A7, A8. reflexivity.
Qed.
Lemma a_proc_same E x y : same_rx x y -> a_proc E x = a_proc E y.
Proof.
  intros S. pose proof (proj2 (norm_same x y) S) as N. destruct S as (A1 & A2 & A3 & A4 & A5 & A6 & A7 & A8).
  unfold a_proc, put. rewrite N, A1, A2, A3, A4, A5, A6, A7, A8. reflexivity.
Qed.
Lemma nrm_delete x evs : nrm (x_delete x evs) = XGone (put x (x_st x) (x_eof x) [] 0 (zlen (inbytes (x_inq x)))) evs.
Proof. reflexivity. Qed.
Lemma resume_abs E x : bufs_ok (x_inq x) -> b_inv (x_st x) -> b_blk (x_st x) = false -> 0 <= x_id x < 2 ^ 62 ->
  nrm (resume true E x) = a_resume E x /\ r_inv (resume true E x).
Proof.
  intros Q Hi Bk Id. destruct (proc_abs E (x_inq x) x (S (length (x_inq x))) eq_refl Q Hi Bk Id ltac:(lia)) as [P1 P2].
  unfold resume, a_resume. rewrite <- P1. destruct (process_blocked true (S (length (x_inq x))) E x) as [x' ev|x' ev|e ev|]; cbn [nrm]; auto.
  change (b_blk (x_st (norm x'))) with (b_blk (x_st x')). change (x_closed (norm x')) with (x_closed x').
  destruct (negb _ && _); [|auto]. split; [|exact Logic.I].
  rewrite !nrm_delete. unfold put, norm. cbn [x_id x_st x_inq x_shut x_eof x_closed x_ret x_def]. rewrite inbytes1. reflexivity.
Qed.
Definition rop_bytes (o : rop) : Prop := match o with RRecv src _ => bytes src | _ => True end.
Lemma cancel_ok d id d' : dec_ok d -> dec_cancel_stream d id = Ok d' -> dec_ok d' /\ ctx_le (d_ctx d) (d_ctx d').
Proof. intros K H. exact (evolves_ok d d' (de_cancel d d' id d' H (de_refl d')) K). Qed.
Lemma st_dec_inv s d : b_inv s -> dec_ok d -> ctx_le (d_ctx (b_dec s)) (d_ctx d) -> b_inv (st_dec s d).
Proof.
  intros [B1 B2 B3 B4 B5 B6 B7] [D1 D2] L. constructor; cbn; auto. eapply sec_ok_le; eauto.
Qed.
Lemma st_blk_inv s b : b_inv s -> b_inv (st_blk s b).
Proof. intros [B1 B2 B3 B4 B5 B6 B7]. constructor; cbn; auto. Qed.
Lemma step_same E x y o : x_inv x -> x_inv y -> same_rx x y -> rop_bytes o -> rop_ok E x o ->
  fst (x_step true E x o) = fst (x_step true E y o) /\
  nrm (snd (x_step true E x o)) = nrm (snd (x_step true E y o)) /\
  r_inv (snd (x_step true E x o)) /\ r_inv (snd (x_step true E y o)).
Proof.
  intros Hx Hy S B O. destruct o as [src fin|E' d| |]; cbn [x_step fst snd rop_bytes rop_ok] in *.
  - destruct (recv_abs E x src fin Hx B) as [P1 P2]. destruct (recv_abs E y src fin Hy B) as [P3 P4].
    rewrite P1, P3. split; [auto|]. split; [apply a_recv_same; auto|auto].
  - destruct O as [_ O]. pose proof S as (A1 & A2 & A3 & A4 & A5 & A6 & A7 & A8). rewrite <- A2.
    destruct Hx as [X1 X2 X3 X4]. destruct Hy as [Y1 Y2 Y3 Y4].
    destruct (evolves_ok _ _ O (conj (bi_dec _ X1) (bi_bad _ X1))) as [D1 D2].
    pose proof (st_dec_inv _ d X1 D1 D2) as I1.
    assert (SS : forall s, same_rx (x_set_st x s) (x_set_st y s)).
    { intros s. unfold same_rx, x_set_st. cbn. auto 12. }
    destruct (b_blk (st_dec (x_st x) d) && _) eqn:C.
    + destruct (resume_abs E' (x_set_st x (st_blk (st_dec (x_st x) d) false))) as [P1 P2]; auto; [apply st_blk_inv; auto|].
      destruct (resume_abs E' (x_set_st y (st_blk (st_dec (x_st x) d) false))) as [P3 P4]; auto; [apply st_blk_inv; auto|].
      cbn [fst snd]. rewrite P1, P3. split; [auto|]. split; [|auto]. unfold a_resume. rewrite (a_proc_same E' _ _ (SS _)). reflexivity.
    + cbn [fst snd nrm]. split; [auto|]. split; [f_equal; apply norm_same; auto|].
      split; constructor; cbn; auto. intros Bk. apply Y3. congruence.
  - pose proof S as (A1 & A2 & A3 & A4 & A5 & A6 & A7 & A8). rewrite <- A3, <- A1, <- A2.
    destruct (x_shut x); [split; [auto|split; [cbn; f_equal; apply norm_same; auto|auto]]|].
    destruct Hx as [X1 X2 X3 X4]. destruct Hy as [Y1 Y2 Y3 Y4].
    pose proof (cancel_ok (b_dec (x_st x)) (x_id x)) as CK.
    assert (NA : dec_cancel_stream (b_dec (x_st x)) (x_id x) <> Abort).
    { unfold dec_cancel_stream. change (2 ^ 62) with 4611686018427387904 in X4. unfold max_varint.
      destruct (Z.ltb_spec (x_id x) 0); [lia|]. destruct (Z.gtb_spec (x_id x) 4611686018427387903); [lia|]. cbn [orb].
      destruct (dbuf_overflow _); discriminate. }
    destruct (dec_cancel_stream (b_dec (x_st x)) (x_id x)) as [d|e|]; [|split; [auto|split; [auto|split; exact Logic.I]]|congruence].
    destruct (CK d (conj (bi_dec _ X1) (bi_bad _ X1)) eq_refl) as [D1 D2].
    split; [auto|]. split.
    + cbn [nrm]. f_equal. unfold norm. cbn. apply rx_eq; auto. unfold inbytes in A8. rewrite A8; auto.
    + split; constructor; cbn; auto; try (apply st_dec_inv; auto). intros Bk. apply Y3. congruence.
  - pose proof S as (A1 & A2 & A3 & A4 & A5 & A6 & A7 & A8). rewrite <- A2.
    destruct Hx as [X1 X2 X3 X4]. destruct Hy as [Y1 Y2 Y3 Y4].
    destruct (b_blk (x_st x)) eqn:Bk.
    + split; [auto|]. split.
      * cbn [nrm]. f_equal. unfold norm. cbn. apply rx_eq; auto. unfold inbytes in A8. rewrite A8; auto.
      * split; constructor; cbn; auto; try congruence.
    + split; [auto|]. split; [|split; exact Logic.I]. rewrite !nrm_delete. f_equal. unfold put.
      rewrite A1, A2, A3, A4, A5, A6, A7, A8. reflexivity.
Qed.
Lemma a_recv_cut E x a b fin : x_inv x -> bytes a -> bytes b ->
  match a_recv E x a false with
  | XOk x' ev => x_evs ev (a_recv E x' b fin)
  | r => r
  end = a_recv E x (a ++ b) fin.
Proof.
  intros [X1 X2 X3 X4] A B. unfold a_recv at 1. cbv zeta.
  destruct ((zlen a =? 0) && negb false) eqn:Ea.
  { rewrite andb_true_r in Ea. apply zlen0_nil in Ea. subst a. cbn [app]. rewrite x_evs_nil.
    symmetry. apply a_recv_same. apply norm_same. symmetry. apply norm_norm. }
  rewrite andb_true_r in Ea.
  assert (Nab : (zlen (a ++ b) =? 0) = false).
  { apply zlen0_cons. intros H. apply app_eq_nil in H as [-> _]. rewrite zlen_nil in Ea. discriminate. }
  unfold a_recv at 2. cbv zeta. rewrite Nab. cbn [andb]. rewrite orb_false_r.
  assert (NN : forall s buf ret def, norm (put x s (x_eof x) buf ret def) = put x s (x_eof x) buf ret def).
  { intros. unfold norm, put. cbn [x_id x_st x_inq x_shut x_eof x_closed x_ret x_def]. rewrite inbytes1. reflexivity. }
  assert (PP : forall s buf ret def s' eof buf' ret' def', put (put x s (x_eof x) buf ret def) s' eof buf' ret' def' = put x s' eof buf' (ret + ret') (def + def')).
  { intros. unfold put. cbn [x_id x_st x_inq x_shut x_eof x_closed x_ret x_def]. apply rx_eq; auto; lia. }
  assert (FR : forall s buf ret def, a_recv E (put x s (x_eof x) buf ret def) b fin =
     if (zlen b =? 0) && negb fin then XOk (put x s (x_eof x) buf ret def) []
     else if x_shut x then XOk (put x s (x_eof x || fin) buf (ret + zlen b) def) []
     else if b_blk s then XOk (put x s (x_eof x || fin) (buf ++ b) ret def) []
     else match b_read true E s b fin with
       | ROk s' ev => XOk (put x s' (x_eof x || fin) buf (ret + (b_cons s' - b_cons s)) def) ev
       | RStop s' rest ev => XOk (put x s' (x_eof x || fin) (buf ++ rest) (ret + (b_cons s' - b_cons s)) def) ev
       | RErr e _ ev => XErr e ev
       | RAbort => XAbort
       end).
  { intros. unfold a_recv. cbv zeta. rewrite NN.
    change (x_shut (put x s (x_eof x) buf ret def)) with (x_shut x).
    change (x_st (put x s (x_eof x) buf ret def)) with s.
    change (x_eof (put x s (x_eof x) buf ret def)) with (x_eof x).
    change (x_inq (put x s (x_eof x) buf ret def)) with [(buf, 0)]. rewrite inbytes1.
    destruct (_ && _); [reflexivity|]. rewrite !PP, !Z.add_0_r. destruct (x_shut x); [reflexivity|].
    destruct (b_blk s); [reflexivity|]. destruct (b_read true E s b fin); auto; rewrite ?PP, ?Z.add_0_r; reflexivity. }
  assert (EF : (zlen b =? 0) && negb fin = true -> b = [] /\ fin = false).
  { intros H. apply andb_true_iff in H as [H1 H2]. apply zlen0_nil in H1. destruct fin; [discriminate|auto]. }
  destruct (x_shut x) eqn:Sh.
  { rewrite x_evs_nil, FR. destruct (_ && _) eqn:Z0.
    - destruct (EF eq_refl) as [-> ->]. rewrite app_nil_r, orb_false_r. reflexivity.
    - rewrite zlen_app. reflexivity. }
  destruct (b_blk (x_st x)) eqn:Bk.
  { rewrite x_evs_nil, FR. destruct (_ && _) eqn:Z0.
    - destruct (EF eq_refl) as [-> ->]. rewrite app_nil_r, orb_false_r. reflexivity.
    - rewrite Bk, app_assoc. reflexivity. }
  rewrite (X3 eq_refl). change (inbytes []) with (@nil Z). cbn [app].
  rewrite (b_read_app E (x_st x) a b fin X1 A B). pose proof (b_read_blk true E (x_st x) a false) as K.
  destruct (b_read true E (x_st x) a false) as [s' ev|s' rest ev|e s' ev|]; auto.
  - rewrite FR. destruct (_ && _) eqn:Z0.
    + destruct (EF eq_refl) as [-> ->]. rewrite b_read_nil. cbn [rev_ x_evs]. rewrite orb_false_r. reflexivity.
    + rewrite (K Bk). destruct (b_read true E s' b fin); cbn [rev_ x_evs app]; auto;
        (f_equal; unfold put; apply rx_eq; auto; lia).
  - rewrite FR. destruct (_ && _) eqn:Z0.
    + destruct (EF eq_refl) as [-> ->]. cbn [x_evs]. rewrite !app_nil_r, orb_false_r. reflexivity.
    + rewrite K. cbn [x_evs]. rewrite app_nil_r. reflexivity.
Qed.

(* --- the code against the proof-only variant --- *)
Definition xpre (r1 r2 : xres) : Prop :=
  r1 = r2 \/ exists e v1 v2, r1 = XErr e v1 /\ r2 = XErr e v2 /\ prefix v1 v2.
Lemma xpre_evs ev r1 r2 : xpre r1 r2 -> xpre (x_evs ev r1) (x_evs ev r2).
Proof.
  intros [-> |(e & v1 & v2 & -> & -> & P)]; [left; auto|right]. cbn. do 3 eexists; repeat split. apply prefix_app; auto.
Qed.
Lemma read_bidi_pre E x src fin :
  read_bidi false E x src fin = read_bidi true E x src fin \/
  exists e v1 v2, read_bidi false E x src fin = CErr e v1 /\ read_bidi true E x src fin = CErr e v2 /\ prefix v1 v2.
Proof.
  unfold read_bidi. cbv zeta. destruct (x_shut x); [auto|]. destruct (b_blk (x_st x)); [auto|].
  destruct (b_read_pre E (x_st x) src fin) as [-> |(e & v1 & v2 & -> & -> & P)]; [left; auto|right; eauto 10].
Qed.
Lemma recv_pre E x src fin : xpre (recv false E x src fin) (recv true E x src fin).
Proof.
  unfold recv. destruct (_ && _); [left; auto|]. cbv zeta.
  destruct (read_bidi_pre E (mk_rx (x_id x) (x_st x) (x_inq x) (x_shut x) (x_eof x || fin) (x_closed x) (x_ret x) (x_def x)) src fin)
    as [-> |(e & v1 & v2 & -> & -> & P)]; [left; auto|right; eauto 10].
Qed.
Lemma proc_pre f : forall E x, xpre (process_blocked false f E x) (process_blocked true f E x).
Proof.
  induction f as [|f IH]; intros E x; [left; auto|]. cbn [process_blocked]. destruct (x_inq x) as [|[buf room] q]; [left; auto|].
  destruct (read_bidi_pre E x buf ((match q with [] => true | _ => false end) && x_eof x))
    as [-> |(e & v1 & v2 & -> & -> & P)]; [|right; eauto 10].
  destruct (read_bidi true E x buf _) as [x' np nc evs|e evs|]; [|left; auto|left; auto].
  destruct (x_inq x') as [|[buf' room'] q']; [left; auto|]. cbv zeta.
  destruct (b_blk _); [left; auto|]. apply xpre_evs, IH.
Qed.
Lemma resume_pre E x : xpre (resume false E x) (resume true E x).
Proof.
  unfold resume. destruct (proc_pre (S (length (x_inq x))) E x) as [-> |(e & v1 & v2 & -> & -> & P)]; [left; auto|right; eauto 10].
Qed.
Lemma step_pre E x o : fst (x_step false E x o) = fst (x_step true E x o) /\ xpre (snd (x_step false E x o)) (snd (x_step true E x o)).
Proof.
  destruct o as [src fin|E' d| |]; cbn [x_step fst snd].
  - split; [auto|apply recv_pre].
  - destruct (_ && _); cbn [fst snd]; (split; [auto|]); [apply resume_pre|left; auto].
  - split; [auto|left; auto].
  - split; [auto|left; auto].
Qed.
Lemma run_pre ops : forall E x, xpre (x_run false E x ops) (x_run true E x ops).
Proof.
  induction ops as [|o ops IH]; intros E x; [left; auto|]. cbn [x_run].
  destruct (step_pre E x o) as [F P]. destruct (x_step false E x o) as [E1 r1]. destruct (x_step true E x o) as [E2 r2].
  cbn [fst snd] in *. subst E2. destruct P as [-> |(e & v1 & v2 & -> & -> & P)]; [|right; eauto 10].
  destruct r2; [|left; auto..]. apply xpre_evs, IH.
Qed.
Fixpoint thist (E : benv) (x : rx) (ops : list rop) : Prop :=
  match ops with
  | [] => True
  | o :: ops' => rop_ok E x o /\ match x_step true E x o with (E', XOk x' _) => thist E' x' ops' | _ => True end
  end.
Lemma hist_thist ops : forall E x, hist_ok E x ops <-> thist E x ops.
Proof.
  induction ops as [|o ops IH]; intros E x; [split; auto|]. cbn [hist_ok thist].
  destruct (step_pre E x o) as [F P]. destruct (x_step false E x o) as [E1 r1]. destruct (x_step true E x o) as [E2 r2].
  cbn [fst snd] in *. subst E2. destruct P as [-> |(e & v1 & v2 & -> & -> & P)]; [|split; auto].
  destruct r2; try (split; tauto). specialize (IH E1 x0). split; intros [A B]; (split; [auto|]); apply IH; auto.
Qed.

(* --- histories --- *)
Lemma rop_ok_same E x y o : same_rx x y -> rop_ok E x o -> rop_ok E y o.
Proof. intros (_ & A & _). destruct o; cbn; auto. rewrite A; auto. Qed.
Lemma same_rx_sym x y : same_rx x y -> same_rx y x.
Proof. unfold same_rx. intros (A1 & A2 & A3 & A4 & A5 & A6 & A7 & A8). auto 12. Qed.
Lemma same_rx_refl x : same_rx x x. Proof. unfold same_rx. auto 12. Qed.
Definition orop_bytes (ops : list rop) : Prop := Forall rop_bytes ops.
Definition requiv (r1 r2 : xres) : Prop := nrm r1 = nrm r2.
Lemma nrm_inv_ok r x e : nrm r = XOk x e -> exists x', r = XOk x' e /\ x = norm x'.
Proof. destruct r; cbn; intros H; inversion H; subst; eauto. Qed.
Definition agree (E : benv) (x y : rx) (l1 l2 : list rop) : Prop :=
  (thist E x l1 -> thist E y l2) /\ (thist E x l1 -> nrm (x_run true E x l1) = nrm (x_run true E y l2) /\ r_inv (x_run true E x l1)).

Lemma step_agree E x y o l1 l2 : x_inv x -> x_inv y -> same_rx x y -> rop_bytes o ->
  (forall E x y, x_inv x -> x_inv y -> same_rx x y -> agree E x y l1 l2) -> agree E x y (o :: l1) (o :: l2).
Proof.
  intros Hx Hy S B IH. unfold agree. cbn [thist x_run].
  assert (X : rop_ok E x o -> forall P : Prop, (forall Q : fst (x_step true E x o) = fst (x_step true E y o) /\
    nrm (snd (x_step true E x o)) = nrm (snd (x_step true E y o)) /\
    r_inv (snd (x_step true E x o)) /\ r_inv (snd (x_step true E y o)), P) -> P).
  { intros O P H. apply H. apply step_same; auto. }
  split.
  - intros [O T]. split; [eapply rop_ok_same; eauto|]. apply (X O). intros (F & N & R1 & R2).
    destruct (x_step true E x o) as [E1 r1], (x_step true E y o) as [E2 r2]. cbn [fst snd] in *. subst E2.
    destruct r2 as [y' ey|y' ey|e ey|]; auto. cbn [nrm] in N. apply nrm_inv_ok in N as (x' & -> & N).
    cbn [r_inv] in *. apply (IH E1 x' y'); auto. apply norm_same; congruence.
  - intros [O T]. apply (X O). intros (F & N & R1 & R2).
    destruct (x_step true E x o) as [E1 r1], (x_step true E y o) as [E2 r2]. cbn [fst snd] in *. subst E2.
    destruct r1 as [x' ex|x' ex|e ex|]; cbn [nrm] in N; destruct r2 as [y' ey|y' ey|e2 ey|]; cbn [nrm] in N; try discriminate; cbn [r_inv] in *.
    + inversion N as [[N1 N2]]. subst ey. assert (S' : same_rx x' y') by (apply norm_same; unfold norm; congruence).
      destruct (IH E1 x' y' R1 R2 S') as [_ IH2]. destruct (IH2 T) as [J1 J2]. rewrite !nrm_evs, J1. split; [auto|apply r_inv_evs; auto].
    + split; auto.
    + split; auto.
    + contradiction.
Qed.
Lemma same_agree l : orop_bytes l -> forall E x y, x_inv x -> x_inv y -> same_rx x y -> agree E x y l l.
Proof.
  induction 1 as [|o l B _ IH]; intros E x y Hx Hy S.
  - split; [auto|]. intros _. cbn. split; [f_equal; apply norm_same; auto|auto].
  - apply step_agree; auto.
Qed.
Lemma cut_agree a b fin l E x y : bytes a -> bytes b -> orop_bytes l -> x_inv x -> x_inv y -> same_rx x y ->
  agree E x y (RRecv a false :: RRecv b fin :: l) (RRecv (a ++ b) fin :: l) /\
  agree E y x (RRecv (a ++ b) fin :: l) (RRecv a false :: RRecv b fin :: l).
Proof.
  intros A B L Hx Hy S. unfold agree. cbn [thist x_run x_step rop_ok].
  destruct (recv_abs E x a false Hx A) as [P1 P2]. pose proof (a_recv_cut E x a b fin Hx A B) as C.
  destruct (recv_abs E y (a ++ b) fin Hy ltac:(apply bytes_app; auto)) as [P3 P4].
  rewrite (a_recv_same E x y (a ++ b) fin S), <- P3, <- P1 in C.
  destruct (recv true E x a false) as [x1 e1|x1 e1|e e1|]; cbn [nrm r_inv] in *; [..|contradiction].
  - destruct (recv_abs E x1 b fin P2 B) as [P5 P6].
    rewrite (a_recv_same E (norm x1) x1), <- P5 in C by (apply norm_same, norm_norm).
    destruct (recv true E x1 b fin) as [x2 e2|x2 e2|e e2|], (recv true E y (a ++ b) fin) as [y2 f2|y2 f2|e' f2|]; cbn [nrm x_evs r_inv] in *;
      try discriminate; try contradiction.
    + inversion C as [[C1 C2 C3 C4 C5 C6 C7 C8 C9]]. subst f2. assert (S' : same_rx x2 y2) by (unfold same_rx; auto 12).
      destruct (same_agree l L E x2 y2 P6 P4 S') as [G1 G2].
      destruct (same_agree l L E y2 x2 P4 P6 (same_rx_sym _ _ S')) as [G3 G4].
      split; split.
      * intros (_ & _ & T). auto.
      * intros (_ & _ & T). destruct (G2 T) as [J1 J2]. rewrite !nrm_evs, J1. split; [rewrite x_evs_app; reflexivity|].
        apply r_inv_evs, r_inv_evs; auto.
      * intros (_ & T). auto.
      * intros (_ & T). destruct (G4 T) as [J1 J2]. rewrite !nrm_evs, J1. split; [rewrite x_evs_app; reflexivity|].
        apply r_inv_evs; auto.
    + split; split; intros _; auto; cbn [nrm x_evs]; rewrite C; auto.
    + split; split; intros _; auto; cbn [nrm x_evs]; rewrite C; auto.
  - destruct (recv true E y (a ++ b) fin); cbn [nrm] in C; try discriminate. split; split; intros _; auto; cbn [nrm]; rewrite C; auto.
  - destruct (recv true E y (a ++ b) fin); cbn [nrm] in C; try discriminate. split; split; intros _; auto; cbn [nrm]; rewrite C; auto.
Qed.
Lemma recut_bytes l1 l2 : recut l1 l2 -> (orop_bytes l1 <-> orop_bytes l2).
Proof.
  induction 1 as [l|l l' _ IH|l1 l2 l3 _ IH1 _ IH2|o l l' _ IH|a b fin l|l]; try tauto.
  - split; inversion 1; constructor; tauto.
  - split.
    + inversion 1 as [|? ? A H']; inversion H' as [|? ? B H'']; subst. constructor; auto. cbn in *. apply bytes_app; auto.
    + inversion 1 as [|? ? A H']; subst. cbn in A. apply bytes_app in A as [A B]. repeat constructor; auto.
  - split; [inversion 1; auto|]. intros H. constructor; [constructor|auto].
Qed.
Lemma recut_agree l1 l2 : recut l1 l2 -> orop_bytes l1 ->
  forall E x y, x_inv x -> x_inv y -> same_rx x y -> agree E x y l1 l2 /\ agree E y x l2 l1.
Proof.
  induction 1 as [l|l l' R IH|l1 l2 l3 R1 IH1 R2 IH2|o l l' R IH|a b fin l|l]; intros B E x y Hx Hy S.
  - split; apply same_agree; auto. apply same_rx_sym; auto.
  - apply recut_bytes in R. destruct (IH ltac:(tauto) E y x Hy Hx (same_rx_sym _ _ S)); auto.
  - assert (B2 : orop_bytes l2) by (apply recut_bytes in R1; tauto).
    destruct (IH1 B E x x Hx Hx (same_rx_refl x)) as [[A1 A2] [A3 A4]]. destruct (IH2 B2 E x y Hx Hy S) as [[C1 C2] [C3 C4]].
    split; split; auto.
    + intros T. destruct (A2 T) as [J1 J2]. destruct (C2 (A1 T)) as [J3 J4]. split; [congruence|auto].
    + intros T. destruct (C4 T) as [J1 J2]. destruct (A4 (C3 T)) as [J3 J4]. split; [congruence|auto].
  - inversion B; subst. split; apply step_agree; auto; [intros; apply IH; auto|apply same_rx_sym; auto|].
    intros E0 x0 y0 I0 J0 S0. apply IH; auto. apply same_rx_sym; auto.
  - inversion B as [|? ? A B']; inversion B' as [|? ? C B'']; subst. apply cut_agree; auto.
  - inversion B as [|? ? _ B']; subst. 
    assert (RE : forall z, recv true E z [] false = XOk z []) by reflexivity.
    destruct (same_agree l B' E x y Hx Hy S) as [A1 A2]. destruct (same_agree l B' E y x Hy Hx (same_rx_sym _ _ S)) as [A3 A4].
    split; split; cbn [thist x_run x_step rop_ok]; rewrite RE.
    + intros [_ T]; auto.
    + intros [_ T]. rewrite x_evs_nil. auto.
    + intros T; auto.
    + intros T. rewrite x_evs_nil. auto.
Qed.
Lemma prefix_comparable A (a b c : list A) : prefix a c -> prefix b c -> comparable a b.
Proof.
  intros [x Hx] [y Hy]. assert (H : a ++ x = b ++ y) by congruence. clear - H. revert b x y H.
  induction a as [|i a IH]; intros [|j b] x y H; cbn in H.
  - exists []; auto.
  - exists (j :: b); auto.
  - exists (i :: a); auto.
  - injection H as -> H. destruct (IH b x y H) as [d [-> | ->]]; [exists d; auto|exists d; auto].
Qed.
Lemma rx_init_inv id h d : dec_ok d -> 0 <= id < 2 ^ 62 -> x_inv (rx_init id h d).
Proof. intros [D1 D2] Hid. constructor; cbn; auto; [apply bst_init_inv; auto|constructor]. Qed.
Lemma received_bytes ops : bytes (received ops) <-> orop_bytes ops.
Proof.
  induction ops as [|o ops IH]; [split; constructor|]. destruct o; cbn [received].
  - split.
    + intros H. apply bytes_app in H as [H1 H2]. constructor; [auto|apply IH; auto].
    + inversion 1; subst. apply bytes_app; split; [auto|apply IH; auto].
  - split; [intros H; constructor; [exact Logic.I|apply IH; auto]|inversion 1; subst; apply IH; auto].
  - split; [intros H; constructor; [exact Logic.I|apply IH; auto]|inversion 1; subst; apply IH; auto].
  - split; [intros H; constructor; [exact Logic.I|apply IH; auto]|inversion 1; subst; apply IH; auto].
Qed.
Theorem cut_independent E id h d l1 l2 : dec_ok d -> 0 <= id < 2 ^ 62 -> bytes (received l1) ->
  hist_ok E (rx_init id h d) l1 -> recut l1 l2 ->
  hist_ok E (rx_init id h d) l2 /\ same_outcome (x_run false E (rx_init id h d) l1) (x_run false E (rx_init id h d) l2).
Proof.
  intros D I B H R. apply received_bytes in B. apply hist_thist in H. set (x := rx_init id h d) in *.
  pose proof (rx_init_inv id h d D I) as Hx. destruct (recut_agree l1 l2 R B E x x Hx Hx (same_rx_refl x)) as [[A1 A2] _].
  split; [apply hist_thist; auto|]. destruct (A2 H) as [J1 J2].
  destruct (run_pre l1 E x) as [-> |(e & v1 & v2 & -> & K1 & P1)]; destruct (run_pre l2 E x) as [-> |(e' & u1 & u2 & -> & K2 & P2)].
  - destruct (x_run true E x l1), (x_run true E x l2); cbn [nrm r_inv] in *; try discriminate; try contradiction.
    + inversion J1. cbn. split; [|auto]. unfold same_rx. auto 12.
    + inversion J1. cbn. split; [|auto]. unfold same_rx. auto 12.
    + inversion J1. cbn. split; [auto|]. exists []. rewrite app_nil_r. auto.
  - rewrite K2 in J1. destruct (x_run true E x l1); cbn [nrm] in J1; try discriminate. inversion J1; subst. cbn.
    split; [auto|]. destruct P2 as [c ->]. exists c. auto.
  - rewrite K1 in J1. destruct (x_run true E x l2); cbn [nrm] in J1; try discriminate. inversion J1; subst. cbn.
    split; [auto|]. destruct P1 as [c ->]. exists c. auto.
  - rewrite K1, K2 in J1. cbn [nrm] in J1. inversion J1; subst. cbn. split; [auto|]. eapply prefix_comparable; eauto.
Qed.
