(* Reading integers and strings piecewise: lemmas in the shape the readers need. *)
From Verif Require Import Base BaseLemmas Tables QpackIntModel QpackIntSpec QpackIntProofs
  HuffModel HuffSpec HuffProofs QpackTabModel Chunk QpackDecModel.

Lemma rs_ok_0 : rs_ok 0 0. Proof. unfold rs_ok, INT_MAX; cbn; lia. Qed.

Lemma q_read_split N left shift a : 1 <= N <= 8 -> bytes a -> a <> [] -> rs_ok left shift ->
  match q_read_varint N left shift a with
  | Ok (l, s, rest, true) => 0 <= l <= INT_MAX /\ bytes rest /\ (length rest < length a)%nat /\
      forall b, q_read_varint N left shift (a ++ b) = Ok (l, s, rest ++ b, true)
  | Ok (l, s, rest, false) => rest = [] /\ rs_ok l s /\ l <> 0 /\
      forall b, b <> [] -> q_read_varint N left shift (a ++ b) = q_read_varint N l s b
  | Err e => e = ERR_QPACK_FATAL /\ forall b, q_read_varint N left shift (a ++ b) = Err e
  | Abort => False
  end.
Proof.
  intros HN Hb Hne Hr. pose proof (q_read_varint_inv N left shift a HN Hb Hne Hr) as I.
  assert (A : forall b, b <> [] -> _) by (intros b Hb'; exact (q_read_varint_app N left shift a b HN Hb Hne Hb' Hr)).
  destruct (q_read_varint N left shift a) as [[[[l s] rest] [|]]|e|] eqn:E; auto.
  - destruct I as [I1 (c & -> & Hc)]. split; [auto|]. split; [apply bytes_app in Hb; tauto|].
    split; [rewrite app_length; destruct c; [congruence|cbn; lia]|].
    intros [|x b]; [rewrite !app_nil_r; auto|]. apply A; discriminate.
  - destruct I as (-> & I1 & I2). split; [auto|split; [exact I1|split; [auto|exact A]]].
  - split; [auto|]. intros [|x b]; [rewrite app_nil_r; auto|]. apply A; discriminate.
Qed.

(* ---- strings ---- *)
Lemma huff_loop_app a : forall fs b,
  huff_loop fs (a ++ b) =
  match huff_loop fs a with
  | None => None
  | Some (f1, o1) => match huff_loop f1 b with
                     | None => None
                     | Some (f2, o2) => Some (f2, o1 ++ o2)
                     end
  end.
Proof.
  induction a as [|c a IH]; intros fs b; cbn [app huff_loop].
  - destruct (huff_loop fs b) as [[f o]|]; auto.
  - destruct (huff_step fs (Z.shiftr c 4)) as [[f1 o1]|]; [|auto].
    destruct (huff_step f1 (Z.land c 15)) as [[f2 o2]|]; [|auto].
    rewrite IH. destruct (huff_loop f2 a) as [[f3 o3]|]; [|auto].
    destruct (huff_loop f3 b) as [[f4 o4]|]; [|auto]. rewrite <- !app_assoc; auto.
Qed.

Lemma hstate_fail_stays fs bits out fs' o src : hstate fs bits out -> huff_failure fs = true ->
  bytes src -> huff_loop fs src = Some (fs', o) -> huff_failure fs' = true.
Proof.
  intros H F Hs E. destruct (huff_loop_state src fs bits out Hs H) as (f & o' & E' & S & _).
  rewrite E in E'. injection E' as <- <-.
  rewrite (huff_fail_land _ _ _ S). rewrite (huff_fail_land _ _ _ H) in F.
  unfold hstate in H, S. rewrite F in H. destruct H as [_ H].
  destruct (Z.land fs' 511 =? 256) eqn:E2; [auto|]. exfalso.
  destruct S as (_ & W & B & _). rewrite walk_app in W.
  destruct (walk [] bits) as [o1 p1]. destruct (walk p1 (bits_of_bytes src)) as [o2 p2].
  apply (f_equal fst) in W. cbn [fst] in W.
  cbn [fst] in H. rewrite <- W in B. apply Forall_app in B as [B _].
  rewrite Forall_forall in B. apply Exists_exists in H as (x & Hx & ->). apply B in Hx.
  unfold is_byte in Hx; lia.
Qed.

Definition str_ok (huf : bool) (left fs : Z) (buf : list Z) (cap : Z) : Prop :=
  0 <= left /\ bytes buf /\
  if huf then (exists bits, hstate fs bits buf) /\ huff_failure fs = false /\ zlen buf + 2 * left <= cap
  else zlen buf + left <= cap.

Lemma str_ok_init huf left fs : 0 <= left ->
  str_ok huf left (if huf then huff_init else fs) [] (if huf then left * 2 else left).
Proof.
  intros H. split; [auto|]. split; [constructor|]. destruct huf; rewrite zlen_nil; [|lia].
  split; [exists []; apply hstate_init|]. split; [reflexivity|lia].
Qed.

Lemma firstn_app_le A n (a b : list A) : n <= zlen a -> firstn (Z.to_nat n) (a ++ b) = firstn (Z.to_nat n) a.
Proof.
  intros H. rewrite firstn_app. replace (Z.to_nat n - length a)%nat with 0%nat by (unfold zlen in *; lia).
  cbn [firstn]. apply app_nil_r.
Qed.
Lemma skipn_app_le A n (a b : list A) : n <= zlen a -> skipn (Z.to_nat n) (a ++ b) = skipn (Z.to_nat n) a ++ b.
Proof.
  intros H. rewrite skipn_app. replace (Z.to_nat n - length a)%nat with 0%nat by (unfold zlen in *; lia). reflexivity.
Qed.
Lemma firstn_app_gt A n (a b : list A) : zlen a <= n -> firstn (Z.to_nat n) (a ++ b) = a ++ firstn (Z.to_nat (n - zlen a)) b.
Proof.
  intros H. rewrite firstn_app, (firstn_all2 a) by (unfold zlen in *; lia). do 2 f_equal. unfold zlen in *; lia.
Qed.
Lemma skipn_app_gt A n (a b : list A) : zlen a <= n -> skipn (Z.to_nat n) (a ++ b) = skipn (Z.to_nat (n - zlen a)) b.
Proof.
  intros H. rewrite skipn_app, (skipn_all2 a) by (unfold zlen in *; lia). cbn [app]. f_equal. unfold zlen in *; lia.
Qed.
Lemma zlen_firstn_le A n (l : list A) : 0 <= n -> zlen (firstn (Z.to_nat n) l) <= n.
Proof. intros; unfold zlen; rewrite firstn_length; lia. Qed.
Lemma zlen_firstn_eq A n (l : list A) : 0 <= n <= zlen l -> zlen (firstn (Z.to_nat n) l) = n.
Proof. intros; unfold zlen in *; rewrite firstn_length; lia. Qed.

Lemma read_str_split huf left fs buf cap a : bytes a -> str_ok huf left fs buf cap ->
  match read_str huf left fs buf cap a with
  | Ok (lft, fs', buf', rest) =>
      if lft =? 0 then bytes buf' /\ rest = skipn (Z.to_nat left) a /\ left <= zlen a /\
        forall b, bytes b -> read_str huf left fs buf cap (a ++ b) = Ok (0, fs', buf', rest ++ b)
      else rest = [] /\ str_ok huf lft fs' buf' cap /\ 0 < lft /\
        forall b, bytes b -> read_str huf left fs buf cap (a ++ b) = read_str huf lft fs' buf' cap b
  | Err e => forall b, bytes b -> exists e', read_str huf left fs buf cap (a ++ b) = Err e'
  | Abort => False
  end.
Proof.
  intros Ha (Hl & Hbuf & H). pose proof (zlen_nonneg _ a) as La. unfold read_str. destruct huf.
  - destruct H as ((bits & Hs) & Hf & Hc). unfold read_huffman_string.
    destruct (Z.geb_spec (zlen a) left) as [G|G].
    + unfold huff_decode.
      destruct (huff_loop_state (firstn (Z.to_nat left) a) fs bits buf (bytes_firstn _ _ Ha) Hs) as (f & o & E & S & L).
      pose proof (zlen_firstn_le _ left a Hl) as Lf.
      assert (R : forall b, match huff_loop fs (firstn (Z.to_nat (if zlen (a ++ b) >=? left then left else zlen (a ++ b))) (a ++ b)) with
         | Some (fs', out) => if (zlen (a ++ b) >=? left) && (Z.land fs' HUFF_ACCEPTED =? 0) then Err ERR_QPACK_FATAL else Ok (fs', out)
         | None => Abort end = if Z.land f HUFF_ACCEPTED =? 0 then Err ERR_QPACK_FATAL else Ok (f, o)).
      { intros b. rewrite zlen_app. pose proof (zlen_nonneg _ b).
        destruct (Z.geb_spec (zlen a + zlen b) left); [|lia]. rewrite firstn_app_le by auto. rewrite E. reflexivity. }
      rewrite E. cbn [andb].
      assert (C1 : forall b, (if zlen (a ++ b) >=? left then left else zlen (a ++ b)) = left).
      { intros b. rewrite zlen_app. pose proof (zlen_nonneg _ b). destruct (Z.geb_spec (zlen a + zlen b) left); lia. }
      destruct (Z.land f HUFF_ACCEPTED =? 0) eqn:A.
      { intros b Hb. rewrite R. eauto. }
      destruct (huff_failure f) eqn:F. { intros b Hb. rewrite R. rewrite F. eauto. }
      destruct (Z.gtb_spec (zlen (buf ++ o)) cap) as [G2|G2]; [rewrite zlen_app in G2; lia|].
      rewrite Z.sub_diag. cbn [Z.eqb].
      rewrite (huff_fail_land _ _ _ S) in F. unfold hstate in S. rewrite F in S. destruct S as (_ & _ & B & _).
      split; [exact B|]. split; [auto|]. split; [lia|]. intros b Hb. rewrite R.
      unfold huff_failure in *. rewrite C1, Z.sub_diag, skipn_app_le by auto.
      assert (F' : (f =? 256) = false).
      { apply Z.eqb_neq; intros ->. discriminate. }
      rewrite F'. destruct (Z.gtb_spec (zlen (buf ++ o)) cap); [lia|auto].
    + unfold huff_decode. rewrite (firstn_all2 a) by (unfold zlen in *; lia).
      destruct (huff_loop_state a fs bits buf Ha Hs) as (f & o & E & S & L).
      rewrite E. cbn [andb].
      destruct (huff_failure f) eqn:F.
      { intros b Hb. set (len := if zlen (a ++ b) >=? left then left else zlen (a ++ b)).
        assert (Lab : zlen (a ++ b) = zlen a + zlen b) by apply zlen_app.
        assert (Hlen : zlen a <= len).
        { unfold len. pose proof (zlen_nonneg _ b). destruct (zlen (a ++ b) >=? left); lia. }
        rewrite firstn_app_gt by auto. rewrite huff_loop_app, E.
        destruct (huff_loop_state (firstn (Z.to_nat (len - zlen a)) b) f _ _ (bytes_firstn _ _ Hb) S) as (f2 & o2 & E2 & S2 & L2).
        rewrite E2. destruct ((zlen (a ++ b) >=? left) && (Z.land f2 HUFF_ACCEPTED =? 0)); [eauto|].
        rewrite (hstate_fail_stays _ _ _ _ _ _ S F (bytes_firstn _ _ Hb) E2). eauto. }
      destruct (Z.gtb_spec (zlen (buf ++ o)) cap) as [G2|G2]; [rewrite zlen_app in G2; lia|].
      destruct (Z.eqb_spec (left - zlen a) 0); [lia|].
      rewrite skipn_all2 by (unfold zlen in *; lia). split; [auto|].
      assert (B : bytes (buf ++ o)).
      { rewrite (huff_fail_land _ _ _ S) in F. unfold hstate in S. rewrite F in S. tauto. }
      split; [|split; [lia|]].
      { split; [lia|]. split; [auto|]. split; [eauto|]. split; [auto|]. rewrite zlen_app; lia. }
      intros b Hb.
      assert (Lab : zlen (a ++ b) = zlen a + zlen b) by apply zlen_app. rewrite Lab.
      pose proof (zlen_nonneg _ b) as Lb.
      set (len := if zlen a + zlen b >=? left then left else zlen a + zlen b).
      assert (Hlen : len - zlen a = if zlen b >=? left - zlen a then left - zlen a else zlen b).
      { unfold len. destruct (Z.geb_spec (zlen a + zlen b) left), (Z.geb_spec (zlen b) (left - zlen a)); lia. }
      assert (Hlen' : zlen a <= len).
      { unfold len. destruct (Z.geb_spec (zlen a + zlen b) left); lia. }
      rewrite firstn_app_gt, skipn_app_gt by auto. rewrite huff_loop_app, E. rewrite <- Hlen.
      assert (Hfin : (zlen a + zlen b >=? left) = (zlen b >=? left - zlen a)) by lia. rewrite Hfin.
      destruct (huff_loop f (firstn (Z.to_nat (len - zlen a)) b)) as [[f2 o2]|]; [|auto].
      destruct ((zlen b >=? left - zlen a) && (Z.land f2 HUFF_ACCEPTED =? 0)); [auto|].
      destruct (huff_failure f2); [auto|]. rewrite app_assoc.
      destruct (zlen ((buf ++ o) ++ o2) >? cap); [auto|]. do 4 f_equal. lia.
  - pose proof (zlen_firstn_le _ left a Hl) as Lf.
    assert (Ln : zlen (firstn (Z.to_nat (Z.min (zlen a) left)) a) = Z.min (zlen a) left).
    { apply zlen_firstn_eq. lia. }
    destruct (Z.gtb_spec (zlen (buf ++ firstn (Z.to_nat (Z.min (zlen a) left)) a)) cap) as [G2|G2].
    { rewrite zlen_app in G2. lia. }
    destruct (Z.eqb_spec (left - Z.min (zlen a) left) 0) as [Z0|Z0].
    + assert (Em : Z.min (zlen a) left = left) by lia. rewrite Em in *.
      split; [apply bytes_app; split; [auto|apply bytes_firstn; auto]|]. split; [auto|]. split; [lia|].
      intros b Hb. assert (Eb : Z.min (zlen (a ++ b)) left = left).
      { rewrite zlen_app. pose proof (zlen_nonneg _ b). lia. }
      rewrite Eb, firstn_app_le, skipn_app_le by lia.
      destruct (Z.gtb_spec (zlen (buf ++ firstn (Z.to_nat left) a)) cap); [lia|].
      rewrite Z.sub_diag; auto.
    + assert (Hlt : zlen a < left) by lia. assert (Em : Z.min (zlen a) left = zlen a) by lia. rewrite Em in *.
      rewrite firstn_all2 in * by (unfold zlen in *; lia). rewrite skipn_all2 by (unfold zlen in *; lia).
      split; [auto|]. split; [split; [lia|split; [apply bytes_app; auto|rewrite zlen_app; lia]]|]. split; [lia|].
      intros b Hb. rewrite (zlen_app _ a b). pose proof (zlen_nonneg _ b).
      replace (Z.min (zlen a + zlen b) left) with (zlen a + Z.min (zlen b) (left - zlen a)) by lia.
      assert (Hgt : zlen a <= zlen a + Z.min (zlen b) (left - zlen a)).
      { clear - H0 Hlt. lia. } rewrite firstn_app_gt, skipn_app_gt by exact Hgt.
      replace (zlen a + Z.min (zlen b) (left - zlen a) - zlen a) with (Z.min (zlen b) (left - zlen a)) by lia.
      rewrite app_assoc.
      destruct (zlen ((buf ++ a) ++ firstn (Z.to_nat (Z.min (zlen b) (left - zlen a))) b) >? cap); [auto|].
      do 4 f_equal. lia.
Qed.
