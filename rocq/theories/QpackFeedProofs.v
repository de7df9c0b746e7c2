(* The decoder stream as read by the encoder: nghttp3_qpack_encoder_read_decoder. *)
From Verif Require Import Base BaseLemmas Tables ConvProofs QpackIntModel QpackIntSpec QpackIntProofs
  HuffModel HuffSpec HuffProofs QpackTabModel QpackTabSpec QpackTabProofs QpackDynSpec QpackDynProofs
  Chunk QpackDecModel QpackReadProofs QpackDecProofs QpackSecProofs QpackHistModel QpackHistSpec QpackHistProofs QpackCutProofs QpackEncModel
  QpackWireProofs QpackEncSpec QpackEncProofs QpackNvProofs QpackNvsProofs QpackShrinkProofs QpackStreamProofs.

(* a section as written, and what it refers to *)
Definition sec_form (hard : Z) (sec : list Z) (ric base : Z) (refs : list (Z * fld)) (hs : list nv) : Prop :=
  exists pb rb, sec = pb ++ rb /\ write_prefix hard ric base = Ok pb /\ 0 <= base < 2 ^ 62 /\
    ric = fmax 0 refs /\ body_sem base refs rb (map expect hs) /\ (ric <> 0 -> rb <> []).
Definition out_link (hard : Z) (c : ctx) (r : Z * Z) (s : sent) : Prop :=
  fst r = o_ric s /\ exists base refs, sec_form hard (o_bytes s) (o_ric s) base refs (o_fields s) /\
    snd r = fmin u64_max refs /\ Forall (fun x => at_index c (fst x) (snd x)) refs.
Definition on_stream (id : Z) (l : list sent) : list sent := filter (fun s => o_id s =? id) l.
Record rlink (hard : Z) (e : enc) (v : view) : Prop := {
  rl_known : v_known v = enc_krcnt e;
  rl_out : forall id, Forall2 (out_link hard (enc_ctx e)) (refs_of (enc_streams e) id) (on_stream id (v_out v)) }.
Definition esinv (e : enc) : Prop := sinv (enc_streams e) (enc_blocked e) (enc_krcnt e) (enc_ctx e).

(* nothing but the book-keeping changed *)
Record booked (e e' : enc) : Prop := {
  bk_ctx : enc_ctx e' = enc_ctx e; bk_p : enc_pending e' = enc_pending e; bk_mn : enc_minupd e' = enc_minupd e;
  bk_ls : enc_lastupd e' = enc_lastupd e; bk_rd : enc_reading e' = enc_reading e; bk_op : enc_op e' = enc_op e;
  bk_lf : enc_left e' = enc_left e; bk_sh : enc_shift e' = enc_shift e; bk_px : enc_prefix e' = enc_prefix e;
  bk_u : enc_unint e' = enc_unint e }.

Lemma on_stream_drop id i l : on_stream i (drop_first id l) = if i =? id then tl (on_stream i l) else on_stream i l.
Proof.
  induction l as [|s l IH]; cbn [drop_first on_stream filter]; [destruct (i =? id); auto|]. fold (on_stream i l).
  destruct (Z.eqb_spec (o_id s) id) as [E|E].
  - destruct (Z.eqb_spec (o_id s) i) as [E2|E2]; destruct (Z.eqb_spec i id); try lia; reflexivity.
  - cbn [on_stream filter]. fold (on_stream i (drop_first id l)). rewrite IH.
    destruct (Z.eqb_spec (o_id s) i) as [E2|E2]; destruct (Z.eqb_spec i id) as [E3|E3]; try lia; reflexivity.
Qed.
Lemma on_stream_cancel id i l : on_stream i (filter (fun s => negb (o_id s =? id)) l) = if i =? id then [] else on_stream i l.
Proof.
  induction l as [|s l IH]; cbn [on_stream filter]; [destruct (i =? id); auto|].
  fold (on_stream i l). fold (on_stream i (filter (fun s => negb (o_id s =? id)) l)) in IH.
  destruct (Z.eqb_spec (o_id s) id) as [E|E]; cbn [negb].
  - fold (on_stream i (filter (fun s => negb (o_id s =? id)) l)). rewrite IH. destruct (Z.eqb_spec i id) as [E2|E2]; [auto|].
    destruct (Z.eqb_spec (o_id s) i); [lia|auto].
  - cbn [filter]. fold (on_stream i (filter (fun s => negb (o_id s =? id)) l)). rewrite IH.
    destruct (Z.eqb_spec (o_id s) i) as [E2|E2]; destruct (Z.eqb_spec i id) as [E3|E3]; try lia; reflexivity.
Qed.
Lemma find_first_on id l : find_first id l = match on_stream id l with [] => None | s :: _ => Some s end.
Proof.
  unfold find_first. induction l as [|s l IH]; cbn [find on_stream filter]; [auto|]. destruct (o_id s =? id); auto.
Qed.
(* an instruction the encoder must accept *)
Lemma rlink_out hard e v : rlink hard e v -> forall id s, In s (v_out v) -> o_id s = id -> refs_of (enc_streams e) id <> [].
Proof.
  intros H id s I E N. pose proof (rl_out _ _ _ H id) as F. rewrite N in F. inversion F as [X|].
  assert (In s (on_stream id (v_out v))) by (apply filter_In; split; [auto|apply Z.eqb_eq; auto]). rewrite <- H0 in H1. destruct H1.
Qed.
Lemma apply_ds_spec hard e v op n : esinv e -> rlink hard e v -> 0 <= n ->
  match apply_ds e op n with
  | Ok e' => esinv e' /\ rlink hard e' (feedback v (op, n)) /\ booked e e' /\ zlen (enc_blocked e') <= zlen (enc_blocked e) /\
             acceptable (next_absidx (enc_ctx e)) v (op, n)
  | Err x => x = ERR_QPACK_DECODER_STREAM_ERROR /\ ~ acceptable (next_absidx (enc_ctx e)) v (op, n)
  | Abort => False
  end.
Proof.
  intros S R Hn. pose proof R as [Kn Out]. destruct op; cbn [apply_ds acceptable feedback].
  - pose proof (add_icnt_spec e n S Hn) as A. destruct ((n =? 0) || _) eqn:E.
    + rewrite A. split; [auto|]. rewrite Kn. lia.
    + destruct A as [A1 A2]. rewrite A1. split; [exact A2|]. split; [|split; [constructor; reflexivity|split]].
      * constructor; [cbn; lia|exact Out].
      * cbn. unfold unblock, zlen. pose proof (filter_length_le _ (fun x => fst x >? enc_krcnt e + n) (enc_blocked e)). lia.
      * rewrite Kn. lia.
  - pose proof (ack_header_spec e n S) as A. pose proof (Out n) as On. destruct (refs_of (enc_streams e) n) as [|[mx mn] rs] eqn:Er.
    + rewrite A. split; [auto|]. intros (s & I & E). elim (rlink_out _ _ _ R n s I E). auto.
    + destruct A as (st & b & A1 & A2 & A3 & A4). rewrite A1.
      inversion On as [|x s l1 l2 [L1 L2] On' E1 E2]. subst x l1. cbn [fst] in L1.
      split; [exact A2|]. split; [|split; [constructor; reflexivity|split; [exact A3|]]].
      * constructor; cbn [en_set_str en_set_krcnt enc_krcnt enc_streams enc_ctx v_known v_out].
        -- rewrite find_first_on, <- E2. lia.
        -- intros i. rewrite A4, on_stream_drop. destruct (Z.eqb_spec i n) as [->|]; [|auto]. rewrite <- E2. exact On'.
      * exists s. assert (I : In s (on_stream n (v_out v))) by (rewrite <- E2; left; auto). apply filter_In in I as [I1 I2].
        split; [auto|]. apply Z.eqb_eq. auto.
  - destruct (cancel_spec e n S) as (st & b & A1 & A2 & A3 & A4). rewrite A1. split; [exact A2|].
    split; [|split; [constructor; reflexivity|auto]].
    constructor; [exact Kn|]. intros i. cbn [en_set_str enc_streams enc_ctx v_out]. rewrite A4, on_stream_cancel.
    destruct (i =? n); [constructor|auto].
Qed.
Lemma apply_ds_ok e op n : esinv e -> 0 <= n ->
  match apply_ds e op n with
  | Ok e' => esinv e' /\ booked e e' /\ zlen (enc_blocked e') <= zlen (enc_blocked e)
  | Err x => x = ERR_QPACK_DECODER_STREAM_ERROR
  | Abort => False
  end.
Proof.
  intros S Hn. destruct op; cbn [apply_ds].
  - pose proof (add_icnt_spec e n S Hn) as A. destruct ((n =? 0) || _) eqn:E; [rewrite A; auto|].
    destruct A as [A1 A2]. rewrite A1. split; [exact A2|]. split; [constructor; reflexivity|].
    cbn. unfold unblock, zlen. pose proof (filter_length_le _ (fun x => fst x >? enc_krcnt e + n) (enc_blocked e)). lia.
  - pose proof (ack_header_spec e n S) as A. destruct (refs_of (enc_streams e) n) as [|[mx mn] rs] eqn:Er; [rewrite A; auto|].
    destruct A as (st & b & A1 & A2 & A3 & A4). rewrite A1. split; [exact A2|]. split; [constructor; reflexivity|auto].
  - destruct (cancel_spec e n S) as (st & b & A1 & A2 & A3 & A4). rewrite A1. split; [exact A2|]. split; [constructor; reflexivity|auto].
Qed.

(* ---- the reader ---- *)
Definition rd_ok (e : enc) : Prop :=
  rs_ok (enc_left e) (enc_shift e) /\
  (if enc_reading e then 6 <= enc_prefix e <= 7 else enc_left e = 0 /\ enc_shift e = 0).
Definition ds_inv (e : enc) : Prop := esinv e /\ rd_ok e.
Definition ds_ce (e : enc) : Prop := False.
Lemma ds_inv_init hard : 0 <= hard -> ds_inv (enc_init hard).
Proof.
  intros H. split; [apply sinv_init; cbn; lia|]. split; [apply rs_ok_0|]. cbn. auto.
Qed.
Lemma ds_inv_fail e : esinv e -> ds_inv (en_fail e).
Proof. intros S. split; [|split; [apply rs_ok_0|cbn; auto]]. destruct S. constructor; auto. Qed.
Definition ds_open (e : enc) (b : Z) : enc :=
  if enc_reading e then e
  else let k := Z.land b 192 in
       if (k =? 128) || (k =? 192) then en_set_rd e true DsAck (enc_left e) (enc_shift e) 7
       else if k =? 64 then en_set_rd e true DsCancel (enc_left e) (enc_shift e) 6
       else en_set_rd e true DsInc (enc_left e) (enc_shift e) 6.
Lemma ds_open_spec e b : ds_inv e -> exists op p, ds_open e b = en_set_rd e true op (enc_left e) (enc_shift e) p /\ 6 <= p <= 7.
Proof.
  intros [S [R1 R2]]. unfold ds_open. destruct (enc_reading e) eqn:E.
  - exists (enc_op e), (enc_prefix e). split; [|auto]. unfold en_set_rd. destruct e. cbn in E |- *. subst. reflexivity.
  - destruct (_ || _); [exists DsAck, 7; split; [auto|lia]|]. destruct (_ =? _); [exists DsCancel, 6|exists DsInc, 6]; split; auto; lia.
Qed.
Lemma ds_step_eq e b t : ds_step e (b :: t) =
  let e := ds_open e b in
  match q_read_varint (enc_prefix e) (enc_left e) (enc_shift e) (b :: t) with
  | Abort => SAbort
  | Err _ => SErr ERR_QPACK_DECODER_STREAM_ERROR (en_fail e) []
  | Ok (l, s, rest, false) => SMore (en_set_rd e true (enc_op e) l s (enc_prefix e)) []
  | Ok (l, s, rest, true) =>
      match apply_ds e (enc_op e) l with
      | Ok e' => SGo (en_set_rd e' false DsInc 0 0 0) rest false [(enc_op e, l)]
      | Err x => SErr x (en_fail e) []
      | Abort => SAbort
      end
  end.
Proof. reflexivity. Qed.
Lemma ds_step_ok e a : ds_inv e -> bytes a -> runnable ds_ce e a -> step_ok ds_step 1 ds_rank ds_inv ds_ce e a (ds_step e a).
Proof.
  intros I Ba Rn. destruct a as [|b t]; [destruct Rn as [X|[]]; congruence|].
  destruct (ds_open_spec e b I) as (op & p & Eo & Hp). destruct I as [S [R1 R2]].
  assert (So : esinv (ds_open e b)) by (rewrite Eo; exact S).
  pose proof (q_read_split p (enc_left e) (enc_shift e) (b :: t) ltac:(lia) Ba ltac:(discriminate) R1) as Q.
  assert (Ds : forall x, ds_step e ((b :: t) ++ x) =
    match q_read_varint p (enc_left e) (enc_shift e) ((b :: t) ++ x) with
    | Abort => SAbort
    | Err _ => SErr ERR_QPACK_DECODER_STREAM_ERROR (en_fail (ds_open e b)) []
    | Ok (l, s, rest, false) => SMore (en_set_rd (ds_open e b) true op l s p) []
    | Ok (l, s, rest, true) =>
        match apply_ds (ds_open e b) op l with
        | Ok e' => SGo (en_set_rd e' false DsInc 0 0 0) rest false [(op, l)]
        | Err x => SErr x (en_fail (ds_open e b)) []
        | Abort => SAbort
        end
    end).
  { intros x. cbn [app]. rewrite ds_step_eq. rewrite Eo. cbn [en_set_rd enc_prefix enc_left enc_shift enc_op]. reflexivity. }
  rewrite <- (app_nil_r (b :: t)) at 2. rewrite Ds. rewrite app_nil_r.
  destruct (q_read_varint p (enc_left e) (enc_shift e) (b :: t)) as [[[[l s] rest] [|]]|x|] eqn:E.
  - destruct Q as (Q1 & Q2 & Q3 & Q4). pose proof (apply_ds_ok (ds_open e b) op l So ltac:(lia)) as A.
    destruct (apply_ds (ds_open e b) op l) as [e'|x|] eqn:Ea; [|split|auto].
    + split; [split; [apply A|split; [apply rs_ok_0|cbn; auto]]|]. split; [auto|]. split; [unfold measure, ds_rank; lia|].
      split; [discriminate|]. intros y By. rewrite Ds, Q4, Ea. reflexivity.
    + apply ds_inv_fail; auto.
    + intros y By. rewrite Ds, Q4, Ea. reflexivity.
  - destruct Q as (-> & Q2 & Q3 & Q4). split.
    + split; [exact So|]. split; [exact Q2|]. exact Hp.
    + intros y By Ny. rewrite Ds, (Q4 y Ny). destruct y as [|y0 y]; [congruence|]. rewrite ds_step_eq.
      assert (Eo2 : ds_open (en_set_rd (ds_open e b) true op l s p) y0 = en_set_rd (ds_open e b) true op l s p) by reflexivity.
      rewrite Eo2. cbn [en_set_rd enc_prefix enc_left enc_shift enc_op].
      assert (Ab : forall n, apply_ds (en_set_rd (ds_open e b) true op l s p) op n =
        match apply_ds (ds_open e b) op n with Ok e' => Ok (en_set_rd e' true op l s p) | Err x => Err x | Abort => Abort end).
      { intros n. rewrite Eo. destruct op; cbn [apply_ds].
        - unfold add_icnt. cbn [en_set_rd enc_ctx enc_krcnt]. destruct (_ || _); reflexivity.
        - unfold ack_header. cbn [en_set_rd enc_streams enc_krcnt]. destruct (find_stream _ _) as [[|[mx mn] [|r rs]]|]; auto; destruct (_ <? _); reflexivity.
        - unfold enc_cancel. cbn [en_set_rd enc_streams enc_krcnt enc_blocked]. destruct (find_stream _ _) as [r|]; [|reflexivity].
          unfold is_blocked. cbn [en_set_rd enc_krcnt]. destruct (if enc_krcnt e <? max_of r then _ else _); reflexivity. }
      destruct (q_read_varint p l s (y0 :: y)) as [[[[l2 s2] r2] [|]]|x|]; cbn [sev app]; auto.
      rewrite Ab. destruct (apply_ds (ds_open e b) op l2); cbn [sev app]; auto.
  - destruct Q as (Q1 & Q2). split; [apply ds_inv_fail; auto|]. intros y By. rewrite Ds, Q2. reflexivity.
  - destruct Q.
Qed.

(* what a call does to the encoder and to the view *)
Record fed (e e' : enc) : Prop := {
  fd_ctx : enc_ctx e' = enc_ctx e \/ enc_ctx e' = ctx_bad (enc_ctx e); fd_p : enc_pending e' = enc_pending e; fd_mn : enc_minupd e' = enc_minupd e;
  fd_ls : enc_lastupd e' = enc_lastupd e; fd_bl : zlen (enc_blocked e') <= zlen (enc_blocked e) }.
Lemma rlink_bad hard e v : rlink hard e v -> rlink hard (en_fail e) v.
Proof. intros [A B]. constructor; auto. Qed.
Lemma rlink_rd hard e v rd op l s p : rlink hard e v -> rlink hard (en_set_rd e rd op l s p) v.
Proof. intros [A B]. constructor; auto. Qed.
Lemma ds_run_view hard f : forall e p v, ds_inv e -> bytes p -> rlink hard e v -> (measure 1 ds_rank e p < f)%nat ->
  match run_fuel ds_step f e p false with
  | ROk e' evs => ds_inv e' /\ rlink hard e' (fold_left feedback evs v) /\ fed e e' /\ enc_ctx e' = enc_ctx e /\
      accepted (next_absidx (enc_ctx e)) v evs
  | RErr x e' evs => x = ERR_QPACK_DECODER_STREAM_ERROR /\ ds_inv e' /\ rlink hard e' (fold_left feedback evs v) /\ fed e e' /\
      enc_ctx e' = ctx_bad (enc_ctx e) /\ accepted (next_absidx (enc_ctx e)) v evs
  | _ => False
  end.
Proof.
  induction f as [|f IH]; intros e p v I Bp R M; [lia|]. destruct p as [|b t].
  { cbn [run_fuel fold_left accepted]. split; [auto|]. split; [auto|]. split; [constructor; auto; lia|auto]. }
  cbn [run_fuel]. rewrite ds_step_eq. destruct (ds_open_spec e b I) as (op & pr & Eo & Hp).
  assert (Ro : rlink hard (ds_open e b) v) by (rewrite Eo; apply rlink_rd; auto).
  assert (So : esinv (ds_open e b)) by (rewrite Eo; apply I).
  pose proof (q_read_split pr (enc_left e) (enc_shift e) (b :: t) ltac:(lia) Bp ltac:(discriminate) (proj1 (proj2 I))) as Q.
  cbv zeta. replace (enc_prefix (ds_open e b)) with pr by (rewrite Eo; reflexivity).
  replace (enc_left (ds_open e b)) with (enc_left e) by (rewrite Eo; reflexivity).
  replace (enc_shift (ds_open e b)) with (enc_shift e) by (rewrite Eo; reflexivity).
  replace (enc_op (ds_open e b)) with op by (rewrite Eo; reflexivity).
  destruct (q_read_varint pr (enc_left e) (enc_shift e) (b :: t)) as [[[[l s] rest] [|]]|x|] eqn:E.
  - destruct Q as (Q1 & Q2 & Q3 & _). pose proof (apply_ds_spec hard (ds_open e b) v op l So Ro ltac:(lia)) as A.
    destruct (apply_ds (ds_open e b) op l) as [e'|x|] eqn:Ea; [| |destruct A].
    + destruct A as (A1 & A2 & A3 & A4 & A5).
      assert (Ce : enc_ctx e' = enc_ctx e) by (rewrite (bk_ctx _ _ A3), Eo; reflexivity).
      assert (I2 : ds_inv (en_set_rd e' false DsInc 0 0 0)) by (split; [exact A1|split; [apply rs_ok_0|cbn; auto]]).
      assert (Mr : (measure 1 ds_rank (en_set_rd e' false DsInc 0 0 0) rest < f)%nat) by (unfold measure, ds_rank in *; lia).
      specialize (IH (en_set_rd e' false DsInc 0 0 0) rest _ I2 Q2 (rlink_rd _ _ _ false DsInc 0 0 0 A2) Mr).
      assert (Fd : forall e2, fed (en_set_rd e' false DsInc 0 0 0) e2 -> fed e e2).
      { intros e2 [F1 F2 F3 F4 F5]. cbn [en_set_rd enc_ctx enc_pending enc_minupd enc_lastupd enc_blocked] in *. destruct A3 as [B1 B2 B3 B4 _ _ _ _ _ _].
        rewrite Eo in *. cbn [en_set_rd enc_ctx enc_pending enc_minupd enc_lastupd enc_blocked] in *. rewrite Ce in F1. constructor; try congruence; try lia; auto. }
      assert (Ac : acceptable (next_absidx (enc_ctx e)) v (op, l)) by (rewrite Eo in A5; exact A5).
      cbn [en_set_rd enc_ctx] in IH. rewrite Ce in IH.
      destruct (run_fuel ds_step f (en_set_rd e' false DsInc 0 0 0) rest false) as [e2 ev|e2 r ev|x e2 ev|]; cbn [rev_ app fold_left accepted]; auto.
      * destruct IH as (I21 & I22 & I23 & I24 & I25). split; [auto|]. split; [auto|]. split; [auto|]. split; [auto|]. auto.
      * destruct IH as (I20 & I21 & I22 & I23 & I24 & I25). split; [auto|]. split; [auto|]. split; [auto|]. split; [auto|]. auto.
    + destruct A as [-> A]. split; [auto|]. split; [apply ds_inv_fail; auto|]. split; [apply rlink_bad; auto|].
      rewrite Eo. split; [constructor; cbn; auto; lia|]. split; [auto|]. cbn. auto.
  - destruct Q as (-> & Q2 & Q3 & _). rewrite Eo. cbn [fold_left accepted]. split; [split; [apply I|split; [exact Q2|exact Hp]]|].
    split; [apply rlink_rd; apply rlink_rd; auto|]. split; [constructor; cbn; auto; lia|]. auto.
  - split; [auto|]. split; [apply ds_inv_fail; auto|]. split; [apply rlink_bad; auto|].
    rewrite Eo. split; [constructor; cbn; auto; lia|]. split; [auto|]. cbn. auto.
  - destruct Q.
Qed.

Lemma ds_run_app e a b : ds_inv e -> bytes a -> bytes b ->
  ds_run e (a ++ b) =
  match ds_run e a with
  | ROk s' ev => rev_ ev (ds_run s' b)
  | RStop s' rest ev => RStop s' (rest ++ b) ev
  | RErr x s' ev => RErr x s' ev
  | RAbort => RAbort
  end.
Proof.
  intros I Ba Bb. unfold ds_run. apply (run_app ds_step 1 ds_rank ds_inv ds_ce ds_step_ok); auto. discriminate.
Qed.
Lemma esinv_unint e u : ds_inv e -> ds_inv (en_set_unint e u).
Proof. intros [A B]. split; auto. Qed.
Lemma read_decoder_spec hard e src v : ds_inv e -> bytes src -> rlink hard e v ->
  match read_decoder e src with
  | (e', Ok n, evs) => n = zlen src /\ ds_inv e' /\ rlink hard e' (fold_left feedback evs v) /\ fed e e' /\ enc_ctx e' = enc_ctx e /\
      accepted (next_absidx (enc_ctx e)) v evs
  | (e', Err x, evs) => ds_inv e' /\ rlink hard e' (fold_left feedback evs v) /\ fed e e' /\
      accepted (next_absidx (enc_ctx e)) v evs
  | (_, Abort, _) => False
  end.
Proof.
  intros I Bs R. unfold read_decoder. destruct (bad (enc_ctx e)) eqn:B.
  { cbn [fold_left accepted]. split; [auto|]. split; [auto|]. split; [constructor; auto; lia|auto]. }
  destruct src as [|b t].
  { cbn [fold_left accepted]. split; [auto|]. split; [auto|]. split; [auto|]. split; [constructor; auto; lia|auto]. }
  set (e1 := en_set_unint e (enc_unint e + zlen (b :: t))).
  assert (I1 : ds_inv e1) by (apply esinv_unint; auto).
  assert (R1 : rlink hard e1 v) by (destruct R; constructor; auto).
  assert (Fd : forall e2, fed e1 e2 -> fed e e2) by (intros e2 [F1 F2 F3 F4 F5]; constructor; auto).
  destruct (enc_unint e1 >? MAX_DECODERLEN).
  { cbn [fold_left accepted]. split; [auto|]. split; [auto|]. split; [apply Fd; constructor; auto; lia|auto]. }
  unfold ds_run, run. set (f := S (measure 1 ds_rank e1 (b :: t))).
  pose proof (ds_run_view hard f e1 (b :: t) v I1 Bs R1 ltac:(unfold f; lia)) as D.
  destruct (run_fuel ds_step f e1 (b :: t) false) as [e2 ev|e2 r ev|x e2 ev|].
  - destruct D as (D1 & D2 & D3 & D4 & D5). auto 10.
  - destruct D.
  - destruct D as (D0 & D1 & D2 & D3 & D4 & D5). auto 10.
  - destruct D.
Qed.

(* ---- the bytes fed, as RFC 9204 section 4.4 instructions ---- *)
Definition op_byte (op : ds_op) (p b : Z) : Prop :=
  match op with
  | DsAck => 128 <= b /\ p = 7
  | DsCancel => 64 <= b < 128 /\ p = 6
  | DsInc => b < 64 /\ p = 6
  end.
Lemma op_byte_prefix op p b : op_byte op p b -> 6 <= p <= 7.
Proof. destruct op; cbn; lia. Qed.
Lemma rfc_dinstr_op op p b t : op_byte op p b ->
  rfc_dinstr (b :: t) = match rfc_int p (b :: t) with Some (v, r) => Some (instr_of (op, v), r) | None => None end.
Proof.
  unfold rfc_dinstr. destruct op; cbn [op_byte instr_of]; intros [H ->].
  - destruct (Z.leb_spec 128 b); [lia|]. destruct (Z.leb_spec 64 b); [lia|]. reflexivity.
  - destruct (Z.leb_spec 128 b); [|lia]. reflexivity.
  - destruct (Z.leb_spec 128 b); [lia|]. destruct (Z.leb_spec 64 b); [|lia]. reflexivity.
Qed.
Lemma open_bits b : is_byte b ->
  ((Z.land b 192 =? 128) || (Z.land b 192 =? 192)) = (128 <=? b) /\ (Z.land b 192 =? 64) = (64 <=? b) && (b <? 128).
Proof.
  revert b. assert (H : forall b, is_byte b -> Bool.eqb ((Z.land b 192 =? 128) || (Z.land b 192 =? 192)) (128 <=? b) &&
    Bool.eqb (Z.land b 192 =? 64) ((64 <=? b) && (b <? 128)) = true) by (apply byte_sweep; vm_compute; reflexivity).
  intros b Hb. specialize (H b Hb). apply andb_true_iff in H as [H1 H2]. apply Bool.eqb_prop in H1, H2. auto.
Qed.
Lemma ds_open_new e b : enc_reading e = false -> is_byte b ->
  exists op p, ds_open e b = en_set_rd e true op (enc_left e) (enc_shift e) p /\ op_byte op p b.
Proof.
  intros E Hb. unfold ds_open. rewrite E. cbv zeta. destruct (open_bits b Hb) as [-> ->].
  destruct (Z.leb_spec 128 b); [exists DsAck, 7; split; [auto|cbn; lia]|].
  destruct (Z.leb_spec 64 b); cbn [andb].
  - destruct (Z.ltb_spec b 128); [|lia]. exists DsCancel, 6. split; [auto|cbn; lia].
  - exists DsInc, 6. split; [auto|cbn; lia].
Qed.
(* [pre]: the bytes of an instruction not yet complete *)
Definition rdlink (e : enc) (pre : list Z) : Prop :=
  match pre with
  | [] => enc_reading e = false /\ enc_left e = 0 /\ enc_shift e = 0
  | b :: t => enc_reading e = true /\ op_byte (enc_op e) (enc_prefix e) b /\
      q_read_varint (enc_prefix e) 0 0 (b :: t) = Ok (enc_left e, enc_shift e, [], false)
  end.
Lemma rdlink_open e pre b t : rdlink e pre -> bytes (pre ++ b :: t) ->
  exists op p x y, ds_open e b = en_set_rd e true op (enc_left e) (enc_shift e) p /\ pre ++ b :: t = x :: y /\ op_byte op p x /\
    q_read_varint p (enc_left e) (enc_shift e) (b :: t) = q_read_varint p 0 0 (x :: y).
Proof.
  intros L B. destruct pre as [|x y].
  - destruct L as (L1 & L2 & L3). apply bytes_cons in B as [B1 B2]. destruct (ds_open_new e b L1 B1) as (op & p & O1 & O2).
    exists op, p, b, t. rewrite L2, L3 in *. auto.
  - destruct L as (L1 & L2 & L3). exists (enc_op e), (enc_prefix e), x, (y ++ b :: t).
    split; [unfold ds_open; rewrite L1; destruct e; cbn in L1 |- *; subst; reflexivity|]. split; [reflexivity|]. split; [auto|].
    change (x :: y ++ b :: t) with ((x :: y) ++ b :: t). rewrite q_read_varint_app, L3; auto.
    + apply op_byte_prefix in L2. lia.
    + apply bytes_app in B. apply B.
    + discriminate.
    + discriminate.
    + apply rs_ok_0.
Qed.

Lemma apply_ds_booked e op n e' : apply_ds e op n = Ok e' -> booked e e'.
Proof.
  destruct op; cbn [apply_ds].
  - unfold add_icnt. destruct (_ || _); intros [= <-]. constructor; reflexivity.
  - unfold ack_header. destruct (find_stream _ _) as [[|[mx mn] [|r rs]]|]; try discriminate; destruct (_ <? _); intros [= <-]; constructor; reflexivity.
  - unfold enc_cancel. destruct (find_stream _ _) as [r|]; [|intros [= <-]; constructor; reflexivity].
    destruct (if is_blocked e (Some r) then _ else _); cbn [obind]; [|discriminate|discriminate]. intros [= <-]. constructor; reflexivity.
Qed.

Lemma ds_run_parse hard f : forall e p v pre, ds_inv e -> bytes (pre ++ p) -> rlink hard e v -> rdlink e pre -> (measure 1 ds_rank e p < f)%nat ->
  match run_fuel ds_step f e p false with
  | ROk e' evs => exists con rest, pre ++ p = con ++ rest /\ rfc_dstream con (map instr_of evs) /\ rdlink e' rest
  | RErr x e' evs => rdlink e' [] /\ exists con rest, pre ++ p = con ++ rest /\ rfc_dstream con (map instr_of evs) /\
      ((exists op n r, rfc_dinstr rest = Some (instr_of (op, n), r) /\ ~ acceptable (next_absidx (enc_ctx e)) (fold_left feedback evs v) (op, n)) \/
       (forall i r, rfc_dinstr rest = Some (i, r) -> 2 ^ 62 <= instr_val i \/ 10 < zlen rest - zlen r))
  | _ => False
  end.
Proof.
  induction f as [|f IH]; intros e p v pre I B R L M; [lia|]. destruct p as [|b t].
  { cbn [run_fuel map]. exists [], pre. rewrite app_nil_r. split; [auto|]. split; [constructor|auto]. }
  cbn [run_fuel]. rewrite ds_step_eq. destruct (rdlink_open e pre b t L B) as (op & pr & x & y & Eo & Ex & Ob & Qr).
  pose proof (op_byte_prefix _ _ _ Ob) as Hp. rewrite Ex in B. rewrite Ex.
  assert (Ro : rlink hard (ds_open e b) v) by (rewrite Eo; apply rlink_rd; auto).
  assert (So : esinv (ds_open e b)) by (rewrite Eo; apply I).
  cbv zeta. replace (enc_prefix (ds_open e b)) with pr by (rewrite Eo; reflexivity).
  replace (enc_left (ds_open e b)) with (enc_left e) by (rewrite Eo; reflexivity).
  replace (enc_shift (ds_open e b)) with (enc_shift e) by (rewrite Eo; reflexivity).
  replace (enc_op (ds_open e b)) with op by (rewrite Eo; reflexivity).
  assert (Bt : bytes (b :: t)). { rewrite <- Ex in B. apply bytes_app in B. apply B. }
  pose proof (q_read_split pr (enc_left e) (enc_shift e) (b :: t) ltac:(lia) Bt ltac:(discriminate) (proj1 (proj2 I))) as Q.
  rewrite Qr in *. destruct (q_read_varint pr 0 0 (x :: y)) as [[[[l s] rest] [|]]|er|] eqn:E.
  - destruct Q as (Q1 & Q2 & Q3 & _).
    destruct (proj1 (q_read_varint_rfc pr (x :: y) l rest ltac:(lia) B) (ex_intro _ s E)) as (Rf & Rl & Rc).
    assert (Di : rfc_dinstr (x :: y) = Some (instr_of (op, l), rest)) by (rewrite (rfc_dinstr_op op pr), Rf; auto).
    assert (Cn : exists con, x :: y = con ++ rest).
    { pose proof (q_read_varint_inv pr 0 0 (x :: y) ltac:(lia) B ltac:(discriminate) rs_ok_0) as X. rewrite E in X. destruct X as (_ & c & X & _). eauto. }
    destruct Cn as (con & Cn).
    pose proof (apply_ds_spec hard (ds_open e b) v op l So Ro ltac:(lia)) as A.
    destruct (apply_ds (ds_open e b) op l) as [e'|er|] eqn:Ea; [| |destruct A].
    + destruct A as (A1 & A2 & A3 & A4 & A5).
      assert (Ce : enc_ctx e' = enc_ctx e) by (rewrite (bk_ctx _ _ A3), Eo; reflexivity).
      assert (I2 : ds_inv (en_set_rd e' false DsInc 0 0 0)) by (split; [exact A1|split; [apply rs_ok_0|cbn; auto]]).
      assert (Mr : (measure 1 ds_rank (en_set_rd e' false DsInc 0 0 0) rest < f)%nat) by (unfold measure, ds_rank in *; lia).
      specialize (IH (en_set_rd e' false DsInc 0 0 0) rest _ [] I2 Q2 (rlink_rd _ _ _ false DsInc 0 0 0 A2) ltac:(repeat split) Mr).
      cbn [en_set_rd enc_ctx app] in IH. rewrite Ce in IH.
      assert (Ds : forall c2 r2 il, rest = c2 ++ r2 -> rfc_dstream c2 il -> rfc_dstream (con ++ c2) (instr_of (op, l) :: il)).
      { intros c2 r2 il Er D. econstructor; [|exact D].
        assert (rfc_dinstr ((con ++ c2) ++ r2) = Some (instr_of (op, l), c2 ++ r2)) by (rewrite <- app_assoc, <- Er, <- Cn; exact Di).
        destruct con as [|x0 con0]; [exfalso; cbn [app] in Cn; rewrite <- Cn in Q3; rewrite <- Ex in Q3; rewrite app_length in Q3; cbn [length] in Q3; lia|].
        cbn [app] in Cn. injection Cn as <- Cn.
        cbn [app]. rewrite (rfc_dinstr_op op pr x) by auto. cbn [app] in H. rewrite (rfc_dinstr_op op pr x) in H by auto.
        assert (Bc : bytes (x :: con0 ++ c2)).
        { rewrite Cn, Er in B. cbn [app] in B. change (x :: con0 ++ c2 ++ r2) with ((x :: con0) ++ c2 ++ r2) in B. rewrite app_assoc in B. apply bytes_app in B. apply B. }
        (* the integer is complete before r2 *)
        pose proof (q_read_split pr 0 0 (x :: con0 ++ c2) ltac:(lia) Bc ltac:(discriminate) rs_ok_0) as X.
        assert (E2 : q_read_varint pr 0 0 ((x :: con0 ++ c2) ++ r2) = Ok (l, s, rest, true)).
        { rewrite <- E. cbn [app]. rewrite <- app_assoc, <- Er, <- Cn. reflexivity. }
        destruct (q_read_varint pr 0 0 (x :: con0 ++ c2)) as [[[[l3 s3] r3] [|]]|er|] eqn:E3.
        - destruct X as (_ & _ & _ & X). rewrite X in E2. injection E2 as -> -> E2. rewrite Er in E2. apply app_inv_tail in E2. subst r3.
          destruct (proj1 (q_read_varint_rfc pr (x :: con0 ++ c2) l c2 ltac:(lia) Bc) (ex_intro _ s E3)) as (Rf3 & _). rewrite Rf3. reflexivity.
        - exfalso. destruct X as (-> & Xo & Xn & X). destruct r2 as [|z r2].
          + rewrite app_nil_r in E2. rewrite E2 in E3. discriminate.
          + rewrite X in E2 by discriminate.
            assert (Bz : bytes (z :: r2)). { rewrite Er in Q2. apply bytes_app in Q2. apply Q2. }
            pose proof (q_read_varint_inv pr l3 s3 (z :: r2) ltac:(lia) Bz ltac:(discriminate) Xo) as Y. rewrite E2 in Y.
            destruct Y as (_ & cc & Y & Yn). rewrite Er in Y. assert (length (z :: r2) = length (cc ++ c2 ++ z :: r2)) by congruence.
            rewrite !app_length in H0. destruct cc; [congruence|]. cbn [length] in H0. lia.
        - exfalso. destruct X as (_ & X). rewrite X in E2. discriminate.
        - destruct X. }
      destruct (run_fuel ds_step f (en_set_rd e' false DsInc 0 0 0) rest false) as [e2 ev|e2 r ev|er e2 ev|]; cbn [rev_ app fold_left map]; auto.
      * destruct IH as (c2 & r2 & I21 & I22 & I23). exists (con ++ c2), r2. split; [rewrite Cn, I21, app_assoc; auto|]. split; [eapply Ds; eauto|auto].
      * destruct IH as (I20 & c2 & r2 & I21 & I22 & I23). split; [auto|]. exists (con ++ c2), r2.
        split; [rewrite Cn, I21, app_assoc; auto|]. split; [eapply Ds; eauto|auto].
    + destruct A as [-> A]. split; [repeat split|]. exists [], (x :: y). split; [auto|]. split; [constructor|]. left. exists op, l, rest.
      split; [auto|]. cbn [fold_left]. rewrite Eo in A. exact A.
  - destruct Q as (-> & Q2 & Q3 & _). exists [], (x :: y). split; [auto|]. split; [constructor|]. rewrite Eo. cbn [rdlink en_set_rd enc_reading enc_op enc_prefix enc_left enc_shift]. auto.
  - split; [repeat split|]. exists [], (x :: y). split; [auto|]. split; [constructor|]. right. intros i r Di. rewrite (rfc_dinstr_op op pr) in Di by auto.
    destruct (rfc_int pr (x :: y)) as [[n r']|] eqn:Ri; [|discriminate]. injection Di as <- <-.
    destruct (Z.lt_ge_cases n (2 ^ 62)) as [H1|H1]; [|left; destruct op; exact H1]. right.
    destruct (Z.lt_ge_cases 10 (zlen (x :: y) - zlen r')) as [H2|H2]; [auto|]. exfalso.
    destruct (proj2 (q_read_varint_rfc pr (x :: y) n r' ltac:(lia) B) (conj Ri (conj H1 H2))) as (s & E2). congruence.
  - destruct Q.
Qed.
