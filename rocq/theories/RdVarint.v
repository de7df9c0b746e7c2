(* The use the stream readers make of nghttp3_read_varint, and its cut lemmas. *)
From Verif Require Import Base BaseLemmas ConvModel ConvSpec ConvProofs.
Open Scope Z_scope.

(* The pattern repeated in lib/nghttp3_conn.c for every integer field, e.g. :1240-1255 (frame
   type), :1257-1270 (frame length), :497-508 (stream type): read_varint, advance, then
   "if (rvint->left) goto almost_done", otherwise take acc and reset the reader. *)
Inductive vres :=
| VMore (rv : rvint)              (* all input consumed, more bytes needed *)
| VDone (v : Z) (rest : list Z)
| VErr                            (* input ended with the stream *)
| VAbort.
Definition rd_varint (rv : rvint) (p : list Z) (fin : bool) : vres :=
  match read_varint rv p fin with
  | Ok (rv', n) => if rv_left rv' =? 0 then VDone (rv_acc rv') (skipn (Z.to_nat n) p) else VMore rv'
  | Err _ => VErr
  | Abort => VAbort
  end.

Lemma ok_inj A (a b : A) : Ok a = Ok b -> a = b. Proof. intros H. injection H. auto. Qed.

(* states of the reader: a proper prefix of an integer has been read *)
Definition rv_inv (rv : rvint) : Prop :=
  exists pre, rv = rv_after pre /\ bytes pre /\
    match pre with [] => True | b :: _ => (length pre < get_varintlen b)%nat end.
Lemma rv_inv_reset : rv_inv rv_reset.
Proof. exists []. repeat split. constructor. Qed.

(* prefixes of one integer: [pre] proper *)
Definition proper (pre : list Z) : Prop :=
  bytes pre /\ match pre with [] => True | b :: _ => (length pre < get_varintlen b)%nat end.

Lemma rd_varint_spec pre p fin : proper pre -> bytes p -> p <> [] ->
  rd_varint (rv_after pre) p fin =
  match get_varint (pre ++ p) with
  | Some (v, rest) => VDone v rest
  | None => if fin then VErr else VMore (rv_after (pre ++ p))
  end /\ (get_varint (pre ++ p) = None -> proper (pre ++ p)).
Proof.
  intros [Hb Hpre] Hp Hne.
  assert (Hfull : bytes (pre ++ p)) by (apply bytes_app; auto).
  pose proof (feed_varint_spec [p] pre fin) as F. cbn [concat] in F. rewrite app_nil_r in F.
  specialize (F ltac:(constructor; [auto|constructor]) Hfull Hpre).
  assert (G : get_varint (pre ++ p) = None -> proper (pre ++ p)).
  { intros H. split; [auto|]. destruct (pre ++ p) as [|b t] eqn:E; [auto|].
    rewrite get_varint_unfold in H. destruct (Nat.ltb_spec (length (b :: t)) (get_varintlen b)); [auto|].
    destruct (firstn (get_varintlen b) (b :: t)) eqn:E2; [|discriminate].
    assert (is_byte b) as Hbb by (apply bytes_cons in Hfull; tauto).
    pose proof (get_varintlen_pos b Hbb). destruct (get_varintlen b); [lia|discriminate]. }
  split; [|auto].
  cbn [feed_varint concat] in F. rewrite andb_true_r, ?app_nil_r in F. unfold rd_varint.
  destruct (get_varint (pre ++ p)) as [[v rest]|] eqn:Eg.
  - destruct (read_varint (rv_after pre) p fin) as [[rv' n]|e|]; try discriminate.
    destruct (rv_left rv' =? 0) eqn:El; [|discriminate].
    injection F as F1 F2. rewrite app_nil_r in F2. subst. reflexivity.
  - destruct fin.
    + destruct (read_varint (rv_after pre) p true) as [[rv' n]|e|]; try discriminate; [|reflexivity].
      destruct (rv_left rv' =? 0) eqn:El; [discriminate|]. discriminate.
    + destruct (read_varint (rv_after pre) p false) as [[rv' n]|e|] eqn:Er; try discriminate.
      destruct (rv_left rv' =? 0) eqn:El; [discriminate|].
      f_equal.
      (* the state reached *)
      specialize (G eq_refl). destruct G as [_ G].
      destruct pre as [|q pre]; cbn [app] in *.
      * destruct p as [|b t]; [congruence|]. unfold read_varint, rv_after, rv_reset in Er.
        cbn [rv_left rv_acc Z.eqb negb] in Er.
        destruct (Z.leb_spec (Z.of_nat (get_varintlen b)) (Z.min (Z.of_nat (get_varintlen b)) (zlen (b :: t)))) as [H|H];
          [unfold zlen in H; lia|].
        assert (Hm : Z.min (Z.of_nat (get_varintlen b)) (zlen (b :: t)) = zlen (b :: t)) by (unfold zlen; lia).
        rewrite Hm in Er. rewrite zlen_length, firstn_all in Er. apply ok_inj in Er. apply pair_equal_spec in Er.
        destruct Er as [Er _]. rewrite <- Er. unfold rv_after, mask_first. cbv zeta. reflexivity.
      * destruct p as [|x t]; [congruence|]. remember (x :: t) as P eqn:EP. remember (q :: pre) as Q eqn:EQ.
        assert (HQl : zlen Q + zlen P < Z.of_nat (get_varintlen q)).
        { unfold zlen. subst Q. change (q :: pre ++ P) with ((q :: pre) ++ P) in G. rewrite app_length in G. lia. }
        assert (HP : 1 <= zlen P) by (subst P; rewrite zlen_cons; pose proof (zlen_nonneg _ t); lia).
        assert (HQ : 1 <= zlen Q) by (subst Q; rewrite zlen_cons; pose proof (zlen_nonneg _ pre); lia).
        assert (EQa : rv_after Q = mkrv (be_val (mask_first Q) * 256 ^ (Z.of_nat (get_varintlen q) - zlen Q)) (Z.of_nat (get_varintlen q) - zlen Q)).
        { subst Q. reflexivity. }
        assert (ERa : rv_after (q :: pre ++ P) = mkrv (be_val (mask_first (Q ++ P)) * 256 ^ (Z.of_nat (get_varintlen q) - zlen (Q ++ P))) (Z.of_nat (get_varintlen q) - zlen (Q ++ P))).
        { subst Q. reflexivity. }
        rewrite ERa. rewrite EQa in Er. unfold read_varint in Er. rewrite EP in Er at 1. cbv iota in Er.
        cbn [rv_left rv_acc] in Er.
        destruct (Z.eqb_spec (Z.of_nat (get_varintlen q) - zlen Q) 0) as [H|_]; [lia|].
        replace (Z.min (Z.of_nat (get_varintlen q) - zlen Q) (zlen P)) with (zlen P) in Er by lia.
        rewrite zlen_length, firstn_all in Er.
        destruct (Z.eqb_spec (Z.of_nat (get_varintlen q) - zlen Q - zlen P) 0) as [H|_]; [lia|].
        apply ok_inj in Er. apply pair_equal_spec in Er. destruct Er as [Er _]. rewrite <- Er.
        rewrite zlen_app, mask_first_app by (subst Q; discriminate). rewrite be_val_app.
        apply (f_equal2 mkrv); [|lia].
        replace (Z.of_nat (get_varintlen q) - zlen Q) with (zlen P + (Z.of_nat (get_varintlen q) - (zlen Q + zlen P))) by lia.
        rewrite Z.pow_add_r by lia.
        replace (zlen P + (Z.of_nat (get_varintlen q) - (zlen Q + zlen P)) - zlen P)
          with (Z.of_nat (get_varintlen q) - (zlen Q + zlen P)) by lia. lia.
Qed.

Lemma get_varint_app l x : bytes l ->
  match get_varint l with
  | Some (v, rest) => get_varint (l ++ x) = Some (v, rest ++ x) /\ 0 <= v <= max_varint /\ bytes rest /\
      (length rest < length l)%nat
  | None => True
  end.
Proof.
  intros Hb. destruct l as [|b t]; [reflexivity|]. cbn [app]. rewrite !get_varint_unfold.
  assert (is_byte b) as Hbb by (apply bytes_cons in Hb; tauto). pose proof (get_varintlen_pos b Hbb) as Hv.
  destruct (Nat.ltb_spec (length (b :: t)) (get_varintlen b)) as [H|H]; [auto|].
  destruct (Nat.ltb_spec (length (b :: t ++ x)) (get_varintlen b)) as [H2|H2].
  { change (b :: t ++ x) with ((b :: t) ++ x) in H2. rewrite app_length in H2. lia. }
  change (b :: t ++ x) with ((b :: t) ++ x). rewrite firstn_app, skipn_app.
  replace (get_varintlen b - length (b :: t))%nat with 0%nat by lia. rewrite firstn_O, app_nil_r. cbn [skipn].
  destruct (firstn (get_varintlen b) (b :: t)) as [|y f] eqn:E.
  { exfalso. destruct (get_varintlen b); [lia|discriminate]. }
  split; [auto|]. split; [|split].
  - assert (Hl : zlen (y :: f) = Z.of_nat (get_varintlen b)).
    { rewrite <- E. unfold zlen. rewrite firstn_length_le; auto. }
    assert (y = b) as ->. { destruct (get_varintlen b); [lia|]. cbn in E. congruence. }
    assert (Hf : bytes (b :: f)). { rewrite <- E. apply bytes_firstn. auto. }
    apply bytes_cons in Hf as [_ Hf]. unfold mask_first. rewrite be_val_cons.
    pose proof (be_val_range f Hf) as Hbf. assert (0 <= Z.land b 63 < 64).
    { change 63 with (Z.ones 6). rewrite Z.land_ones by lia. apply Z.mod_pos_bound. lia. }
    rewrite zlen_cons in Hl. assert (zlen f <= 7) by lia.
    assert (256 ^ zlen f <= 256 ^ 7) by (apply Z.pow_le_mono_r; lia).
    change (256 ^ 7) with 72057594037927936 in *. unfold max_varint. nia.
  - apply bytes_skipn. auto.
  - rewrite skipn_length. cbn [length]. lia.
Qed.

(* what a reader needs to know *)
Definition vres_ok (rv : rvint) (p : list Z) : Prop :=
  match rd_varint rv p false with
  | VDone v rest => 0 <= v <= max_varint /\ bytes rest /\ (length rest < length p)%nat /\
      rd_varint rv p true = VDone v rest /\
      forall b f, bytes b -> rd_varint rv (p ++ b) f = VDone v (rest ++ b)
  | VMore rv' => rv_inv rv' /\ rv_left rv' <> 0 /\ rd_varint rv p true = VErr /\
      forall b f, bytes b -> b <> [] -> rd_varint rv (p ++ b) f = rd_varint rv' b f
  | VErr => False
  | VAbort => False
  end.
Lemma rd_varint_ok rv p : rv_inv rv -> bytes p -> p <> [] -> vres_ok rv p.
Proof.
  intros (pre & -> & Hb & Hpre) Hp Hne. assert (P : proper pre) by (split; auto).
  assert (Hfull : bytes (pre ++ p)) by (apply bytes_app; auto).
  destruct (rd_varint_spec pre p false P Hp Hne) as [E1 G]. destruct (rd_varint_spec pre p true P Hp Hne) as [E2 _].
  unfold vres_ok. rewrite E1. destruct (get_varint (pre ++ p)) as [[v rest]|] eqn:Eg.
  - pose proof (get_varint_app (pre ++ p) [] Hfull) as A. rewrite Eg in A. destruct A as (_ & A2 & A3 & A4).
    assert (Hlt : (length rest < length p)%nat).
    { destruct pre as [|q pre]; [exact A4|]. cbn [app] in Eg. rewrite get_varint_unfold in Eg.
      change (q :: pre ++ p) with ((q :: pre) ++ p) in Eg.
      destruct (Nat.ltb_spec (length ((q :: pre) ++ p)) (get_varintlen q)); [discriminate|].
      destruct (firstn (get_varintlen q) ((q :: pre) ++ p)); [discriminate|]. 
      assert (Er : rest = skipn (get_varintlen q) ((q :: pre) ++ p)) by congruence.
      rewrite Er, skipn_length, app_length. rewrite app_length in H. lia. }
    split; [auto|]. split; [auto|]. split; [auto|]. split; [auto|].
    intros b f Hbb. destruct (rd_varint_spec pre (p ++ b) f P ltac:(apply bytes_app; auto)) as [E3 _].
    { destruct p; [congruence|discriminate]. }
    rewrite E3, app_assoc. pose proof (get_varint_app (pre ++ p) b Hfull) as A. rewrite Eg in A.
    destruct A as [-> _]. reflexivity.
  - specialize (G eq_refl). split; [exists (pre ++ p); destruct G; auto|]. split; [|split; [auto|]].
    + destruct G as [_ G]. destruct (pre ++ p) as [|b t] eqn:E; [destruct pre; destruct p; discriminate|].
      cbn [rv_after rv_left]. unfold zlen. lia.
    + intros b f Hbb Hbn. destruct (rd_varint_spec (pre ++ p) b f G Hbb Hbn) as [-> _].
      destruct (rd_varint_spec pre (p ++ b) f P ltac:(apply bytes_app; auto)) as [-> _].
      { destruct p; [congruence|discriminate]. }
      rewrite app_assoc. reflexivity.
Qed.
Lemma rv_inv_left rv : rv_inv rv -> rv_left rv = 0 -> rv = rv_reset.
Proof. intros ([|b t] & -> & _ & H); [auto|]. cbn [rv_after rv_left]. unfold zlen. lia. Qed.
