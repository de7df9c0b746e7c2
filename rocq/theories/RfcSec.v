(* The field section reader against RFC 9204 4.5. *)
From Verif Require Import Base BaseLemmas QpackIntModel QpackIntSpec QpackIntProofs HuffModel HuffSpec HuffProofs Tables QpackTabModel QpackTabSpec QpackTabProofs
  QpackDynSpec QpackDynProofs Chunk QpackDecModel QpackReadProofs QpackDecProofs QpackSecProofs QpackWireProofs RfcQpackSpec RfcPrim RfcEnc Props_QpackTab.
Open Scope Z_scope.

(* [dyn] is what the section can see of the dynamic table of [c] *)
Record smatch (c : ctx) (dyn : Z -> option field) : Prop := {
  sm_ok : ctx_ok c;
  sm_at : forall i, 0 <= i < next_absidx c ->
    match dyn i with
    | Some f => exists e, dtable_get c i = Some e /\ kv e = f /\ e_token e = lookup_token (e_name e) /\
        next_absidx c - i - 1 < zlen (dtable c)
    | None => zlen (dtable c) <= next_absidx c - i - 1
    end }.
Lemma tmatch_smatch max c t : tmatch max c t -> smatch c (absolute t).
Proof.
  intros M. constructor; [exact (tm_ok _ _ _ M)|]. intros i Hi. unfold absolute. rewrite (proj2 (Z.ltb_ge i 0)) by lia.
  rewrite <- (tm_next _ _ _ M). pose proof (tm_relative _ _ _ (next_absidx c - 1 - i) M ltac:(lia)) as R.
  destruct (relative t (next_absidx c - 1 - i)) as [f|].
  - destruct R as (e & G & K & T & _ & _ & _ & L). exists e. replace (next_absidx c - (next_absidx c - 1 - i) - 1) with i in G by lia.
    repeat split; auto. lia.
  - lia.
Qed.

Section Line.
Variables (c : ctx) (dyn : Z -> option field).
Hypothesis M : smatch c dyn.
Let CO : ctx_ok c := sm_ok _ _ M.

Definition swaits (s : sctx) (p : list Z) : Prop := exists s', rs_run c s p = ROk s' [] /\ s_state s' <> RsOpcode.
Definition sfails (s : sctx) (p : list Z) : Prop := exists e s', rs_run c s p = RErr e s' [].
Lemma srun1 s p : rs_inv s -> bytes p -> p <> [] -> rs_run c s p = turn (rs_step c) s p (run (rs_step c) 8 rs_rank).
Proof. intros I B H. unfold rs_run. apply (rs_turn c CO); auto. discriminate. Qed.

Lemma rs_value_cases s p : rs_inv s -> s_state s = RsCheckValueHuffman -> bytes p ->
  (swaits s p /\ forall v r, ~ a_value p v r) \/
  (sfails s p /\ forall x v r, bytes x -> ~ a_value (p ++ x) v r) \/
  (exists v r rr, a_value p v r /\ bytes v /\ bytes r /\
     r_value rr = v /\ r_name rr = r_name (s_rs s) /\ r_absidx rr = r_absidx (s_rs s) /\ r_dynamic rr = r_dynamic (s_rs s) /\
     r_never rr = r_never (s_rs s) /\
     (forall q, rs_out c s rr = Ok q -> rs_run c s p = rev_ [q] (rs_run c (s_next s (s_op s)) r)) /\
     (forall e, rs_out c s rr = Err e -> sfails s p)).
Proof.
  intros I St B. destruct p as [|b t].
  { left. split; [|intros v r; apply a_string_nil]. exists s. split; [reflexivity|]. rewrite St. discriminate. }
  pose proof (srun1 s (b :: t) I B ltac:(discriminate)) as R. unfold turn in R.
  assert (P7 : r_prefix (s_rs s) = 7) by (destruct I as (_ & _ & I); rewrite St in I; apply I).
  assert (E1 : rs_step c s (b :: t) = rs_read_valuelen s (rs_check_huffman (s_rs s) b) (b :: t)) by (unfold rs_step; rewrite St; reflexivity).
  unfold rs_read_valuelen in E1. cbn [rs_check_huffman r_prefix r_left r_shift r_hufenc] in E1. rewrite P7 in E1.
  pose proof (string_cases 7 65536 b t (r_huff (s_rs s)) ltac:(lia) B) as Q. cbv zeta in Q. fold a_value in Q.
  destruct (q_read_varint 7 0 0 (b :: t)) as [[[[n sh] rest] [|]]|e|].
  - destruct Q as (Br & Hn & _ & Q). change MAX_VALUELEN with 65536 in E1. destruct (n >? 65536).
    + right; left. split; [|exact Q]. rewrite E1 in R. unfold rs_fail in R. eexists _, _. exact R.
    + set (huf := negb (Z.land b (2 ^ 7) =? 0)) in *. rewrite E1 in R.
      pose proof (rs_inv_go c CO _ _ _ _ _ _ I B ltac:(discriminate) E1) as I2.
      match type of E1 with _ = SGo ?x _ _ _ => set (d2 := x) in * end.
      cbn [rev_] in R. rewrite rev_nil2 in R. rewrite (rs_turn c CO) in R; [|exact I2|exact Br| |right; reflexivity].
      2:{ intros _. unfold rs_ce, d2, s_set. cbn [s_state]. destruct huf; auto. }
      unfold turn in R.
      assert (E2 : rs_step c d2 rest = rs_read_value c huf d2 rest).
      { unfold rs_step, d2. cbn [s_set s_state]. destruct huf; reflexivity. }
      rewrite E2 in R. unfold rs_read_value in R.
      assert (F : read_str huf (r_left (s_rs d2)) (r_huff (s_rs d2)) (r_value (s_rs d2)) (r_vcap (s_rs d2)) rest =
                  read_str huf n (if huf then huff_init else r_huff (s_rs s)) [] (if huf then n * 2 else n) rest).
      { unfold d2. cbn [s_set s_rs rs_alloc_value rs_set_int rs_check_huffman r_left r_huff r_value r_vcap r_hufenc r_prefix]. rewrite P7. fold huf. reflexivity. }
      rewrite F in R. clear F. destruct (read_str huf n _ [] _ rest) as [[[[lft fs'] v] r]|e|].
      * destruct (Z.eqb_spec lft 0) as [->|Hl]; cbn [negb] in R.
        -- destruct Q as (A & Bs & Brr). right; right. exists v, r, (rs_set_value (s_rs d2) 0 fs' v).
           split; [exact A|]. split; [exact Bs|]. split; [exact Brr|]. do 5 (split; [reflexivity|]).
           fold (rs_out c d2 (rs_set_value (s_rs d2) 0 fs' v)) in R. change (rs_out c d2) with (rs_out c s) in R. split.
           ++ intros q Ec. rewrite Ec in R. unfold rs_emit in R. exact R.
           ++ intros e Ee. rewrite Ee in R. unfold rs_fail in R. eexists _, _. exact R.
        -- left. split; [|exact Q]. eexists. split; [exact R|]. unfold d2. cbn [s_set s_state]. destruct huf; discriminate.
      * right; left. split; [|exact Q]. unfold rs_fail in R. eexists _, _. exact R.
      * destruct Q.
  - left. split; [|exact Q]. rewrite E1 in R. eexists. split; [exact R|]. discriminate.
  - right; left. split; [|exact Q]. rewrite E1 in R. unfold rs_fail in R. eexists _, _. exact R.
  - destruct Q.
Qed.

Lemma rs_name_cases s p : rs_inv s -> s_state s = RsCheckNameHuffman -> bytes p -> p <> [] ->
  (swaits s p /\ forall n r, a_name 3 p n r -> r = []) \/
  (sfails s p /\ forall x n r, bytes x -> ~ a_name 3 (p ++ x) n r) \/
  (exists n r s', a_name 3 p n r /\ bytes n /\ bytes r /\ rs_inv s' /\ s_state s' = RsCheckValueHuffman /\ s_op s' = s_op s /\
     s_next s' (s_op s) = s_next s (s_op s) /\ r_name (s_rs s') = n /\ r_never (s_rs s') = r_never (s_rs s) /\
     rs_run c s p = rs_run c s' r).
Proof.
  intros I St B Hne. destruct p as [|b t]; [congruence|]. clear Hne.
  pose proof (srun1 s (b :: t) I B ltac:(discriminate)) as R. unfold turn in R.
  assert (P5 : r_prefix (s_rs s) = 3) by (destruct I as (_ & _ & I); rewrite St in I; apply I).
  assert (E1 : rs_step c s (b :: t) = rs_read_namelen s (rs_check_huffman (s_rs s) b) (b :: t)) by (unfold rs_step; rewrite St; reflexivity).
  unfold rs_read_namelen in E1. cbn [rs_check_huffman r_prefix r_left r_shift r_hufenc] in E1. rewrite P5 in E1.
  pose proof (string_cases 3 256 b t (r_huff (s_rs s)) ltac:(lia) B) as Q. cbv zeta in Q. fold (a_name 3) in Q.
  pose proof (fun n sh s r => name_empty 3 256 (b :: t) n sh s r ltac:(lia) B) as NE.
  destruct (q_read_varint 3 0 0 (b :: t)) as [[[[n sh] rest] [|]]|e|].
  - destruct Q as (Br & Hn & _ & Q). change MAX_NAMELEN with 256 in E1. destruct (n >? 256).
    + right; left. split; [|exact Q]. rewrite E1 in R. unfold rs_fail in R. eexists _, _. exact R.
    + set (huf := negb (Z.land b (2 ^ 3) =? 0)) in *. rewrite E1 in R.
      pose proof (rs_inv_go c CO _ _ _ _ _ _ I B ltac:(discriminate) E1) as I2.
      match type of E1 with _ = SGo ?x _ _ _ => set (d2 := x) in * end.
      rewrite rev_nil2 in R. destruct rest as [|b2 t2].
      { left. split; [|intros s' r; exact (NE n sh s' r eq_refl)].
        eexists. split; [exact R|]. unfold d2. cbn [s_set s_state]. destruct huf; discriminate. }
      set (rest := b2 :: t2) in *.
      assert (R2 : rs_run c s (b :: t) = turn (rs_step c) d2 rest (run (rs_step c) 8 rs_rank)).
      { rewrite R. apply (rs_turn c CO); [exact I2|exact Br|discriminate|left; discriminate]. }
      clear R. rename R2 into R. unfold turn in R.
      assert (E2 : rs_step c d2 rest = rs_read_name huf d2 rest).
      { unfold rs_step, d2. cbn [s_set s_state]. destruct huf; reflexivity. }
      pose proof (rs_inv_go c CO d2 rest) as IG. rewrite E2 in R, IG. unfold rs_read_name in R, IG.
      assert (F : read_str huf (r_left (s_rs d2)) (r_huff (s_rs d2)) (r_name (s_rs d2)) (r_ncap (s_rs d2)) rest =
                  read_str huf n (if huf then huff_init else r_huff (s_rs s)) [] (if huf then n * 2 else n) rest).
      { unfold d2. cbn [s_set s_rs rs_alloc_name rs_set_int rs_check_huffman r_left r_huff r_name r_ncap r_hufenc r_prefix]. rewrite P5. fold huf. reflexivity. }
      rewrite F in R, IG. clear F. destruct (read_str huf n _ [] _ rest) as [[[[lft fs'] v] r]|e|].
      * destruct (Z.eqb_spec lft 0) as [->|Hl]; cbn [negb] in R, IG.
        -- destruct Q as (A & Bs & Brr). right; right. eexists v, r, _.
           split; [exact A|]. split; [exact Bs|]. split; [exact Brr|]. split; [exact (IG _ _ _ _ I2 Br ltac:(discriminate) eq_refl)|].
           do 5 (split; [reflexivity|]). rewrite R, rev_nil2. reflexivity.
        -- left. split; [|intros s' r' A; exfalso; exact (Q _ _ A)]. eexists. split; [exact R|].
           unfold d2. cbn [s_set s_state]. destruct huf; discriminate.
      * right; left. split; [|exact Q]. unfold rs_fail in R. eexists _, _. exact R.
      * destruct Q.
  - left. split; [|intros s' r A; exfalso; exact (Q _ _ A)]. rewrite E1 in R. eexists. split; [exact R|]. discriminate.
  - right; left. split; [|exact Q]. rewrite E1 in R. unfold rs_fail in R. eexists _, _. exact R.
  - destruct Q.
Qed.

(* ---------------- references ---------------- *)
Definition found (ric : Z) (dy : bool) (i : Z) (f : field) : Prop := if dy then entry dyn ric i f else static i = Some f.
Definition target (op : rs_opcode) (dy : bool) (base n : Z) : Z :=
  match op with RoIndexed | RoIndexedName => if dy then base - 1 - n else n | _ => base + n end.
Definition resolve (s : sctx) (op : rs_opcode) (r : rstate) : outcome rstate :=
  match op with
  | RoIndexed | RoIndexedName => brel2abs c s r
  | RoIndexedPb | RoIndexedNamePb => pbrel2abs c s r
  | RoLiteral => Abort
  end.
Lemma static_lt n f : static n = Some f -> 0 <= n < 99.
Proof.
  unfold static. destruct (Z.ltb_spec n 0); [discriminate|]. intros E.
  assert (X : nth_error rfc_static_table (Z.to_nat n) <> None) by congruence. apply nth_error_Some in X.
  change (length rfc_static_table) with 99%nat in X. lia.
Qed.
Lemma static_some n : 0 <= n < 99 -> exists f, static n = Some f.
Proof.
  intros H. unfold static. rewrite (proj2 (Z.ltb_ge n 0)) by lia. destruct (nth_error rfc_static_table (Z.to_nat n)) as [f|] eqn:E; [eauto|].
  apply nth_error_None in E. change (length rfc_static_table) with 99%nat in E. lia.
Qed.
Lemma resolve_cases s op r n dy : s_ricnt s <= next_absidx c -> 0 <= s_base s -> 0 <= n -> op <> RoLiteral ->
  (op = RoIndexedPb \/ op = RoIndexedNamePb -> dy = true) -> r_left r = n -> r_dynamic r = dy ->
  let i := target op dy (s_base s) n in
  match resolve s op r with
  | Ok r' => r' = rs_set_absidx r i /\ exists f, found (s_ricnt s) dy i f
  | Err e => forall f, ~ found (s_ricnt s) dy i f
  | Abort => False
  end.
Proof.
  intros Hr Hb Hn Ho Hd Hl Hy i.
  assert (V : forall j, dy = true -> 0 <= j < s_ricnt s ->
    match validate_index c (rs_set_absidx r j) with true => exists f, found (s_ricnt s) dy j f | false => forall f, ~ found (s_ricnt s) dy j f end).
  { intros j -> Hj. pose proof (sm_at _ _ M j ltac:(lia)) as A. unfold validate_index, found, entry. cbn [rs_set_absidx r_absidx r_dynamic]. rewrite Hy.
    rewrite (proj2 (Z.ltb_lt j (next_absidx c))) by lia. cbn [andb].
    destruct (dyn j) as [f|].
    - destruct A as (e & _ & _ & _ & L). rewrite (proj2 (Z.ltb_lt _ _) L). exists f. auto.
    - rewrite (proj2 (Z.ltb_ge _ _) A). intros f (_ & X). discriminate. }
  assert (Bc : op = RoIndexed \/ op = RoIndexedName -> match brel2abs c s r with
    | Ok r' => r' = rs_set_absidx r i /\ exists f, found (s_ricnt s) dy i f | Err e => forall f, ~ found (s_ricnt s) dy i f | Abort => False end).
  { intros Hop. assert (Ei : i = if dy then s_base s - 1 - n else n) by (unfold i, target; destruct Hop as [-> | ->]; reflexivity). clearbody i. unfold brel2abs. rewrite Hy, Hl. destruct dy; cbn [andb].
    - destruct (Z.ltb_spec (s_base s) (n + 1)) as [L|L]; [intros f ((X & _) & _); lia|].
      cbn [rs_set_absidx r_absidx]. replace (s_base s - n - 1) with i by lia.
      destruct (Z.geb_spec i (s_ricnt s)) as [L2|L2]; [intros f ((_ & X) & _); lia|].
      specialize (V i eq_refl ltac:(lia)). destruct (validate_index c (rs_set_absidx r i)); auto.
    - unfold validate_index. cbn [rs_set_absidx r_absidx r_dynamic]. rewrite Hy. subst i. unfold found. change stable_len with 99.
      destruct (Z.ltb_spec n 99); [split; [reflexivity|apply static_some; lia]|]. intros f X. apply static_lt in X. lia. }
  assert (Pc : op = RoIndexedPb \/ op = RoIndexedNamePb -> match pbrel2abs c s r with
    | Ok r' => r' = rs_set_absidx r i /\ exists f, found (s_ricnt s) dy i f | Err e => forall f, ~ found (s_ricnt s) dy i f | Abort => False end).
  { intros Hop. assert (Ei : i = s_base s + n) by (unfold i, target; destruct Hop as [-> | ->]; reflexivity). clearbody i. unfold pbrel2abs. specialize (Hd Hop). rewrite Hd in Hy, V |- *. rewrite Hy. cbn [negb].
    cbn [rs_set_absidx r_absidx]. rewrite Hl. replace (n + s_base s) with i by lia.
    destruct (Z.geb_spec i (s_ricnt s)) as [L2|L2]; [intros f ((_ & X) & _); lia|].
    specialize (V i eq_refl ltac:(lia)). destruct (validate_index c (rs_set_absidx r i)); auto. }
  clearbody i. unfold resolve. destruct op; first [exact (Bc (or_introl eq_refl)) | exact (Bc (or_intror eq_refl)) | exact (Pc (or_introl eq_refl)) | exact (Pc (or_intror eq_refl)) | congruence].
Qed.
Lemma found_emit ric r dy i f : ric <= next_absidx c -> found ric dy i f -> r_dynamic r = dy -> r_absidx r = i ->
  emit_indexed c r = Ok (shown_field f false).
Proof.
  intros Hr F Hy Ha. unfold emit_indexed. rewrite Hy, Ha. destruct dy; unfold found in F.
  - destruct F as (Hi & D). pose proof (sm_at _ _ M i ltac:(lia)) as A. rewrite D in A. destruct A as (e & G & K & T & _). rewrite G, T, <- K. reflexivity.
  - pose proof (static_lt _ _ F) as Hi. pose proof (static_get i ltac:(lia)) as G. destruct (stable_get i) as [[[n v] tk]|]; [|congruence].
    destruct G as (G & -> & _). rewrite F in G. injection G as ->. reflexivity.
Qed.
Lemma found_emit_name ric r dy i f : ric <= next_absidx c -> found ric dy i f -> r_dynamic r = dy -> r_absidx r = i ->
  emit_indexed_name c r = Ok (shown_field (fst f, r_value r) (r_never r)).
Proof.
  intros Hr F Hy Ha. unfold emit_indexed_name. rewrite Hy, Ha. destruct dy; unfold found in F.
  - destruct F as (Hi & D). pose proof (sm_at _ _ M i ltac:(lia)) as A. rewrite D in A. destruct A as (e & G & K & T & L).
    unfold validate_index. rewrite Hy, Ha. rewrite (proj2 (Z.ltb_lt i (next_absidx c))), (proj2 (Z.ltb_lt _ _) L) by lia. cbn [andb negb].
    rewrite G, T, <- K. reflexivity.
  - pose proof (static_lt _ _ F) as Hi. pose proof (static_get i ltac:(lia)) as G. destruct (stable_get i) as [[[n v] tk]|]; [|congruence].
    destruct G as (G & -> & _). rewrite F in G. injection G as ->. reflexivity.
Qed.

Definition sdone (s : sctx) (p : list Z) : Prop :=
  exists q r op, field_line dyn (s_ricnt s) (s_base s) p q r /\ bytes r /\ rs_run c s p = rev_ [q] (rs_run c (s_next s op) r).
Definition no_line (ric base : Z) (p : list Z) : Prop := forall x q r, bytes x -> ~ field_line dyn ric base (p ++ x) q r.
Definition incomplete (ric base : Z) (p : list Z) : Prop := forall q r, ~ field_line dyn ric base p q r.
Definition verdict (s : sctx) (p : list Z) : Prop :=
  (swaits s p /\ incomplete (s_ricnt s) (s_base s) p) \/ (sfails s p /\ no_line (s_ricnt s) (s_base s) p) \/ sdone s p.

Section OneLine.
Variables (s : sctx) (b : Z) (u : list Z).
Hypothesis SS : s_start s.
Hypothesis LE : s_ricnt s <= next_absidx c.
Let p := b :: u.
Hypothesis Bp : bytes p.
Let I : rs_inv s := proj1 SS.

Lemma idx_line N op nev dy : 3 <= N <= 6 -> op <> RoLiteral ->
  (op = RoIndexedPb \/ op = RoIndexedNamePb -> dy = true) ->
  rs_step c s p = SGo (s_set_op s RsReadIndex op (rs_set_op (s_rs s) N nev dy)) p false [] ->
  (forall x q r, field_line dyn (s_ricnt s) (s_base s) (p ++ x) q r <->
    if match op with RoIndexed | RoIndexedPb => true | _ => false end
    then exists k f, an_int N (p ++ x) k r /\ found (s_ricnt s) dy (target op dy (s_base s) k) f /\ q = shown_field f false
    else exists k f m v, an_int N (p ++ x) k m /\ a_value m v r /\ found (s_ricnt s) dy (target op dy (s_base s) k) f /\ q = shown_field (fst f, v) nev) ->
  verdict s p.
Proof.
  intros HN Hop Hdy E1 L.
  assert (L0 : forall q r, field_line dyn (s_ricnt s) (s_base s) p q r <->
    if match op with RoIndexed | RoIndexedPb => true | _ => false end
    then exists k f, an_int N p k r /\ found (s_ricnt s) dy (target op dy (s_base s) k) f /\ q = shown_field f false
    else exists k f m v, an_int N p k m /\ a_value m v r /\ found (s_ricnt s) dy (target op dy (s_base s) k) f /\ q = shown_field (fst f, v) nev).
  { intros q r. specialize (L [] q r). rewrite app_nil_r in L. exact L. }
  pose proof (rs_go c CO _ _ _ _ _ I Bp ltac:(discriminate) E1) as R. rewrite rev_nil2 in R.
  pose proof (rs_inv_go c CO _ _ _ _ _ _ I Bp ltac:(discriminate) E1) as I2.
  set (s1 := s_set_op s _ _ _) in *.
  pose proof (srun1 s1 p I2 Bp ltac:(discriminate)) as R1. pose proof (rs_inv_go c CO s1 p) as IG. unfold turn in R1.
  assert (E2 : rs_step c s1 p = rs_read_index c s1 p) by reflexivity. rewrite E2 in R1, IG. unfold rs_read_index in R1, IG.
  change (r_prefix (s_rs s1)) with N in R1, IG.
  assert (L1 : r_left (s_rs s1) = 0 /\ r_shift (s_rs s1) = 0).
  { pose proof SS as (X & Y & _). destruct X as (_ & _ & X). rewrite Y in X. exact X. }
  destruct L1 as (L1 & L2). rewrite L1, L2 in R1, IG. change (s_op s1) with op in R1, IG.
  pose proof (int_cases N p ltac:(lia) Bp ltac:(discriminate)) as Q.
  destruct (q_read_varint N 0 0 p) as [[[[n sh] rest] [|]]|e|].
  - destruct Q as (A & Hn & Br & _).
    assert (U : forall x k r, an_int N (p ++ x) k r -> k = n /\ r = rest ++ x).
    { intros x k r A'. destruct (an_int_fun _ _ _ _ _ _ (an_int_app _ _ _ _ x A) A') as (<- & <-). auto. }
    pose proof (resolve_cases s1 op (rs_set_int (s_rs s1) n sh) n dy LE ltac:(apply I2) Hn Hop Hdy eq_refl eq_refl) as RC. cbv zeta in RC.
    change (s_base s1) with (s_base s) in RC. change (s_ricnt s1) with (s_ricnt s) in RC. set (i := target op dy (s_base s) n) in *.
    fold (resolve s1 op (rs_set_int (s_rs s1) n sh)) in R1, IG.
    destruct (resolve s1 op (rs_set_int (s_rs s1) n sh)) as [r'|e|] eqn:ER; [| |destruct RC].
    + destruct RC as (-> & f & F).
      assert (Ff : forall f', found (s_ricnt s) dy i f' -> f' = f).
      { intros f' F'. unfold found, entry in *. destruct dy; [destruct F, F'|]; congruence. }
      destruct (match op with RoIndexed | RoIndexedPb => true | _ => false end) eqn:K.
      * assert (R2 : rs_run c s1 p = rev_ [shown_field f false] (rs_run c (s_next s op) rest)).
        { destruct op; try discriminate K; rewrite (found_emit _ (rs_set_absidx (rs_set_int (s_rs s1) n sh) i) dy i f LE F eq_refl eq_refl) in R1; exact R1. }
        right; right. exists (shown_field f false), rest, op. split; [apply L0; exists n, f; auto|]. split; [exact Br|]. congruence.
      * set (s2 := s_set s1 RsCheckValueHuffman (rs_set_prefix (rs_set_absidx (rs_set_int (s_rs s1) n sh) i) 7)) in *.
        assert (R2 : rs_run c s p = rs_run c s2 rest /\ rs_inv s2).
        { destruct op; try discriminate K; rewrite rev_nil2 in R1; (split; [rewrite R; exact R1|exact (IG _ _ _ _ I2 Bp ltac:(discriminate) eq_refl)]). }
        destruct R2 as (R2 & I3).
        assert (Out : forall rr, r_absidx rr = i -> r_dynamic rr = dy -> r_never rr = nev -> rs_out c s2 rr = Ok (shown_field (fst f, r_value rr) nev)).
        { intros rr Y1 Y2 Y3. unfold rs_out. change (s_op s2) with op. pose proof (found_emit_name _ rr dy i f LE F Y2 Y1) as X. rewrite Y3 in X.
          destruct op; try discriminate K; first [exact X|congruence]. }
        destruct (rs_value_cases s2 rest I3 eq_refl Br) as [[(s' & W1 & W2) Nv]|[[(e & s' & Fl) Nv]|(v & r & rr & Av & Bv & Brr & V1 & V2 & V3 & V4 & V5 & K1 & K2)]].
        -- left. split; [exists s'; split; [congruence|exact W2]|]. intros q r X. apply L0 in X. destruct X as (k & f' & m & v & A1 & A2 & _).
           rewrite <- (app_nil_r p) in A1. destruct (U [] _ _ A1) as (-> & ->). rewrite app_nil_r in A2. exact (Nv _ _ A2).
        -- right; left. split; [exists e, s'; congruence|]. intros x q r Bx X. apply L in X. destruct X as (k & f' & m & v & A1 & A2 & _).
           destruct (U _ _ _ A1) as (-> & ->). exact (Nv _ _ _ Bx A2).
        -- right; right. exists (shown_field (fst f, v) nev), r, op. split; [apply L0; exists n, f, rest, v; auto|]. split; [exact Brr|].
           rewrite R2. rewrite (K1 (shown_field (fst f, v) nev)); [reflexivity|]. rewrite <- V1. apply Out; [exact V3|exact V4|exact V5].
    + right; left. split; [unfold rs_fail in R1; eexists _, _; rewrite R; exact R1|].
      intros x q r Bx X. apply L in X. destruct (match op with RoIndexed | RoIndexedPb => true | _ => false end).
      * destruct X as (k & f & A1 & F & _). destruct (U _ _ _ A1) as (-> & _). exact (RC f F).
      * destruct X as (k & f & m & v & A1 & _ & F & _). destruct (U _ _ _ A1) as (-> & _). exact (RC f F).
  - left. split; [eexists; rewrite R, R1; split; [reflexivity|discriminate]|]. intros q r X. apply L0 in X.
    destruct (match op with RoIndexed | RoIndexedPb => true | _ => false end).
    + destruct X as (k & f & A1 & _). exact (Q _ _ A1).
    + destruct X as (k & f & m & v & A1 & _). exact (Q _ _ A1).
  - right; left. split; [unfold rs_fail in R1; eexists _, _; rewrite R; exact R1|].
    intros x q r Bx X. apply L in X. destruct (match op with RoIndexed | RoIndexedPb => true | _ => false end).
    + destruct X as (k & f & A1 & _). exact (Q _ _ _ Bx A1).
    + destruct X as (k & f & m & v & A1 & _). exact (Q _ _ _ Bx A1).
  - destruct Q.
Qed.

Lemma lit_line nev : rs_step c s p = SGo (s_set_op s RsCheckNameHuffman RoLiteral (rs_set_op (s_rs s) 3 nev false)) p false [] ->
  (forall x q r, field_line dyn (s_ricnt s) (s_base s) (p ++ x) q r <->
    exists n m v, a_name 3 (p ++ x) n m /\ a_value m v r /\ q = shown_field (n, v) nev) ->
  verdict s p.
Proof.
  intros E1 L.
  assert (L0 : forall q r, field_line dyn (s_ricnt s) (s_base s) p q r <-> exists n m v, a_name 3 p n m /\ a_value m v r /\ q = shown_field (n, v) nev).
  { intros q r. specialize (L [] q r). rewrite app_nil_r in L. exact L. }
  pose proof (rs_go c CO _ _ _ _ _ I Bp ltac:(discriminate) E1) as R. rewrite rev_nil2 in R.
  pose proof (rs_inv_go c CO _ _ _ _ _ _ I Bp ltac:(discriminate) E1) as I2.
  set (s1 := s_set_op s _ _ _) in *.
  destruct (rs_name_cases s1 p I2 eq_refl Bp ltac:(discriminate)) as [[(s' & W1 & W2) N]|[[(e & s' & Fl) N]|(n & r & s2 & A & Bn & Br & J1 & J2 & J3 & J4 & J5 & J6 & R2)]].
  - left. split; [exists s'; split; [congruence|exact W2]|]. intros q r X. apply L0 in X. destruct X as (n & m & v & A1 & A2 & _).
    rewrite (N _ _ A1) in A2. exact (a_string_nil _ _ _ _ A2).
  - right; left. split; [exists e, s'; congruence|]. intros x q r Bx X. apply L in X. destruct X as (n & m & v & A1 & _). exact (N _ _ _ Bx A1).
  - assert (U : forall x n' m, bytes x -> a_name 3 (p ++ x) n' m -> n' = n /\ m = r ++ x).
    { intros x n' m Bx A'. assert (X : a_name 3 (p ++ x) n (r ++ x)) by (apply a_string_app; exact A).
      assert (B2 : bytes (p ++ x)) by (apply bytes_app; auto).
      destruct (a_string_fun _ _ _ _ _ _ _ B2 X A') as (<- & <-). auto. }
    destruct (rs_value_cases s2 r J1 J2 Br) as [[(s' & W1 & W2) Nv]|[[(e & s' & Fl) Nv]|(v & r2 & rr & Av & Bv & Brr & V1 & V2 & V3 & V4 & V5 & K1 & K2)]].
    + left. split; [exists s'; split; [congruence|exact W2]|]. intros q r' X. apply L0 in X. destruct X as (n' & m & v & A1 & A2 & _).
      rewrite <- (app_nil_r p) in A1. destruct (U [] _ _ ltac:(constructor) A1) as (-> & ->). rewrite app_nil_r in A2. exact (Nv _ _ A2).
    + right; left. split; [exists e, s'; congruence|]. intros x q r' Bx X. apply L in X. destruct X as (n' & m & v & A1 & A2 & _).
      destruct (U _ _ _ Bx A1) as (-> & ->). exact (Nv _ _ _ Bx A2).
    + right; right. exists (shown_field (n, v) nev), r2, RoLiteral. split; [apply L0; exists n, r, v; auto|]. split; [exact Brr|].
      rewrite R, R2. change (s_op s1) with RoLiteral in *. rewrite (K1 (shown_field (n, v) nev)); [rewrite J3, J4; reflexivity|].
      unfold rs_out. rewrite J3. unfold emit_literal, never_flag, shown_field. rewrite V2, V1, V5, J6, J5. reflexivity.
Qed.

Lemma line_cases : verdict s p.
Proof.
  assert (Bb : is_byte b) by (inversion Bp; auto). assert (Hb : 0 <= b < 256) by exact Bb.
  pose proof SS as (X & St & Nv). assert (Z0 : r_left (s_rs s) = 0 /\ r_shift (s_rs s) = 0) by (destruct X as (_ & _ & X); rewrite St in X; exact X).
  destruct Z0 as (Z1 & Z2).
  assert (E : rs_step c s p = rs_opcode_step s b p) by (unfold rs_step; rewrite St; reflexivity).
  unfold rs_opcode_step in E. rewrite Z1, Z2, Nv in E. cbn [Z.eqb negb orb] in E.
  destruct (rs_bits b Bb) as (B1 & B2 & B3 & B4). rewrite B1, B2, B3, B4 in E.
  assert (T6 : (Z.land b 64 =? 0) = negb (Z.testbit b 6)) by (pose proof (land_testbit b 6 ltac:(lia)) as Y; change (2 ^ 6) with 64 in Y; rewrite <- Y; destruct (Z.land b 64 =? 0); reflexivity).
  assert (T5 : (Z.land b 32 =? 0) = negb (Z.testbit b 5)) by (pose proof (land_testbit b 5 ltac:(lia)) as Y; change (2 ^ 5) with 32 in Y; rewrite <- Y; destruct (Z.land b 32 =? 0); reflexivity).
  assert (T4 : (Z.land b 16 =? 0) = negb (Z.testbit b 4)) by (pose proof (land_testbit b 4 ltac:(lia)) as Y; change (2 ^ 4) with 16 in Y; rewrite <- Y; destruct (Z.land b 16 =? 0); reflexivity).
  assert (T3 : (Z.land b 8 =? 0) = negb (Z.testbit b 3)) by (pose proof (land_testbit b 3 ltac:(lia)) as Y; change (2 ^ 3) with 8 in Y; rewrite <- Y; destruct (Z.land b 8 =? 0); reflexivity).
  pose proof (rs_bits2 b Bb) as (C1 & C2 & _).
  assert (D : forall x q r, field_line dyn (s_ricnt s) (s_base s) (p ++ x) q r -> exists b' t', p ++ x = b' :: t' /\ b' = b) by (intros x q r (b' & t' & Y & _); exists b', t'; split; [exact Y|injection Y; auto]).
  destruct (Z.leb_spec 128 b) as [L7|L7].
  - destruct (Z.leb_spec 192 b) as [L8|L8].
    + rewrite (C2 L8) in E. apply (idx_line 6 RoIndexed false false); [lia|discriminate|intros [Y|Y]; discriminate|exact E|].
      intros x q r. unfold field_line. split.
      * intros (b' & t' & Y & Z). injection Y as <- <-. rewrite (proj2 (Z.leb_le 192 b) L8) in Z. exact Z.
      * intros Z. exists b, (u ++ x). split; [reflexivity|]. rewrite (proj2 (Z.leb_le 192 b) L8). exact Z.
    + rewrite (C1 ltac:(lia)) in E. apply (idx_line 6 RoIndexed false true); [lia|discriminate|intros [Y|Y]; discriminate|exact E|].
      intros x q r. unfold field_line. split.
      * intros (b' & t' & Y & Z). injection Y as <- <-. rewrite (proj2 (Z.leb_gt 192 b)), (proj2 (Z.leb_le 128 b)) in Z by lia. exact Z.
      * intros Z. exists b, (u ++ x). split; [reflexivity|]. rewrite (proj2 (Z.leb_gt 192 b)), (proj2 (Z.leb_le 128 b)) by lia. exact Z.
  - destruct (Z.leb_spec 64 b) as [L6|L6].
    + rewrite T4, T5, negb_involutive in E. apply (idx_line 4 RoIndexedName (Z.testbit b 5) (negb (Z.testbit b 4))); [lia|discriminate|intros [Y|Y]; discriminate|exact E|].
      intros x q r. unfold field_line, found, target. split.
      * intros (b' & t' & Y & Z). injection Y as <- <-. rewrite (proj2 (Z.leb_gt 192 b)), (proj2 (Z.leb_gt 128 b)), (proj2 (Z.leb_le 64 b)) in Z by lia.
        destruct Z as (k & f & m & v & Z3 & Z4 & Z5 & Z6). exists k, f, m, v. do 2 (split; [assumption|]). split; [|exact Z6]. destruct (Z.testbit b 4); exact Z5.
      * intros (k & f & m & v & Z3 & Z4 & Z5 & Z6). exists b, (u ++ x). split; [reflexivity|]. rewrite (proj2 (Z.leb_gt 192 b)), (proj2 (Z.leb_gt 128 b)), (proj2 (Z.leb_le 64 b)) by lia.
        exists k, f, m, v. do 2 (split; [assumption|]). split; [|exact Z6]. destruct (Z.testbit b 4); exact Z5.
    + destruct (Z.leb_spec 32 b) as [L5|L5].
      * rewrite (proj2 (Z.ltb_lt b 64)) in E by lia. cbn [andb] in E. rewrite T4, negb_involutive in E. apply (lit_line (Z.testbit b 4)); [exact E|].
        intros x q r. unfold field_line. split.
        -- intros (b' & t' & Y & Z). injection Y as <- <-. rewrite (proj2 (Z.leb_gt 192 b)), (proj2 (Z.leb_gt 128 b)), (proj2 (Z.leb_gt 64 b)), (proj2 (Z.leb_le 32 b)) in Z by lia. exact Z.
        -- intros Z. exists b, (u ++ x). split; [reflexivity|]. rewrite (proj2 (Z.leb_gt 192 b)), (proj2 (Z.leb_gt 128 b)), (proj2 (Z.leb_gt 64 b)), (proj2 (Z.leb_le 32 b)) by lia. exact Z.
      * cbn [andb] in E. rewrite (proj2 (Z.ltb_lt b 32) L5), andb_true_r in E. destruct (Z.leb_spec 16 b) as [L4|L4].
        -- apply (idx_line 4 RoIndexedPb false true); [lia|discriminate|auto|exact E|].
           intros x q r. unfold field_line. split.
           ++ intros (b' & t' & Y & Z). injection Y as <- <-. rewrite (proj2 (Z.leb_gt 192 b)), (proj2 (Z.leb_gt 128 b)), (proj2 (Z.leb_gt 64 b)), (proj2 (Z.leb_gt 32 b)), (proj2 (Z.leb_le 16 b)) in Z by lia. exact Z.
           ++ intros Z. exists b, (u ++ x). split; [reflexivity|]. rewrite (proj2 (Z.leb_gt 192 b)), (proj2 (Z.leb_gt 128 b)), (proj2 (Z.leb_gt 64 b)), (proj2 (Z.leb_gt 32 b)), (proj2 (Z.leb_le 16 b)) by lia. exact Z.
        -- rewrite T3, negb_involutive in E. apply (idx_line 3 RoIndexedNamePb (Z.testbit b 3) true); [lia|discriminate|auto|exact E|].
           intros x q r. unfold field_line. split.
           ++ intros (b' & t' & Y & Z). injection Y as <- <-. rewrite (proj2 (Z.leb_gt 192 b)), (proj2 (Z.leb_gt 128 b)), (proj2 (Z.leb_gt 64 b)), (proj2 (Z.leb_gt 32 b)), (proj2 (Z.leb_gt 16 b)) in Z by lia. exact Z.
           ++ intros Z. exists b, (u ++ x). split; [reflexivity|]. rewrite (proj2 (Z.leb_gt 192 b)), (proj2 (Z.leb_gt 128 b)), (proj2 (Z.leb_gt 64 b)), (proj2 (Z.leb_gt 32 b)), (proj2 (Z.leb_gt 16 b)) by lia. exact Z.
Qed.
End OneLine.
End Line.

(* ---------------- functionality ---------------- *)
Lemma field_line_len dyn ric base l q r : field_line dyn ric base l q r -> (length r < length l)%nat.
Proof.
  intros (b & t & -> & A). destruct (192 <=? b); [|destruct (128 <=? b); [|destruct (64 <=? b); [|destruct (32 <=? b); [|destruct (16 <=? b)]]]].
  - destruct A as (k & f & A & _). exact (an_int_len _ _ _ _ A).
  - destruct A as (k & f & A & _). exact (an_int_len _ _ _ _ A).
  - destruct A as (k & f & m & v & A & A' & _). apply an_int_len in A. apply a_string_len in A'. lia.
  - destruct A as (k & m & v & A & A' & _). apply a_string_len in A. apply a_string_len in A'. lia.
  - destruct A as (k & f & A & _). exact (an_int_len _ _ _ _ A).
  - destruct A as (k & f & m & v & A & A' & _). apply an_int_len in A. apply a_string_len in A'. lia.
Qed.
Lemma entry_fun dyn ric i f f' : entry dyn ric i f -> entry dyn ric i f' -> f = f'.
Proof. intros (_ & A) (_ & B). congruence. Qed.
Lemma field_line_fun dyn ric base l q r q' r' : bytes l -> field_line dyn ric base l q r -> field_line dyn ric base l q' r' -> q = q' /\ r = r'.
Proof.
  intros B (b & t & E & A) (b' & t' & E' & A'). rewrite E in E'. injection E' as <- <-.
  destruct (192 <=? b); [|destruct (128 <=? b); [|destruct (64 <=? b); [|destruct (32 <=? b); [|destruct (16 <=? b)]]]].
  - destruct A as (k & f & A & F & ->), A' as (k' & f' & A' & F' & ->). destruct (an_int_fun _ _ _ _ _ _ A A') as (<- & <-). split; congruence.
  - destruct A as (k & f & A & F & ->), A' as (k' & f' & A' & F' & ->). destruct (an_int_fun _ _ _ _ _ _ A A') as (<- & <-).
    rewrite (entry_fun _ _ _ _ _ F F'). auto.
  - destruct A as (k & f & m & v & A & V & F & ->), A' as (k' & f' & m' & v' & A' & V' & F' & ->). destruct (an_int_fun _ _ _ _ _ _ A A') as (<- & <-).
    destruct (a_string_fun _ _ _ _ _ _ _ (an_int_bytes _ _ _ _ B A) V V') as (<- & <-).
    assert (f = f') by (destruct (Z.testbit b 4); [congruence|exact (entry_fun _ _ _ _ _ F F')]). subst. auto.
  - destruct A as (n & m & v & A & V & ->), A' as (n' & m' & v' & A' & V' & ->).
    destruct (a_string_fun _ _ _ _ _ _ _ B A A') as (<- & <-).
    assert (Bm : bytes m). { destruct A as (b0 & t0 & raw & E0 & A0 & _). apply (an_int_bytes _ _ _ _ B) in A0. apply bytes_app in A0. apply A0. }
    destruct (a_string_fun _ _ _ _ _ _ _ Bm V V') as (<- & <-). auto.
  - destruct A as (k & f & A & F & ->), A' as (k' & f' & A' & F' & ->). destruct (an_int_fun _ _ _ _ _ _ A A') as (<- & <-).
    rewrite (entry_fun _ _ _ _ _ F F'). auto.
  - destruct A as (k & f & m & v & A & V & F & ->), A' as (k' & f' & m' & v' & A' & V' & F' & ->). destruct (an_int_fun _ _ _ _ _ _ A A') as (<- & <-).
    destruct (a_string_fun _ _ _ _ _ _ _ (an_int_bytes _ _ _ _ B A) V V') as (<- & <-).
    rewrite (entry_fun _ _ _ _ _ F F'). auto.
Qed.
Lemma field_line_bytes dyn ric base l q r : bytes l -> field_line dyn ric base l q r -> bytes r.
Proof.
  assert (VB : forall N M m v x, bytes m -> a_string N M m v x -> bytes x).
  { intros N M m v x Bm (b0 & t0 & raw & E0 & A0 & _). apply (an_int_bytes _ _ _ _ Bm) in A0. apply bytes_app in A0. apply A0. }
  intros B (b & t & E & A).
  destruct (192 <=? b); [|destruct (128 <=? b); [|destruct (64 <=? b); [|destruct (32 <=? b); [|destruct (16 <=? b)]]]].
  - destruct A as (k & f & A & _). exact (an_int_bytes _ _ _ _ B A).
  - destruct A as (k & f & A & _). exact (an_int_bytes _ _ _ _ B A).
  - destruct A as (k & f & m & v & A & A' & _). exact (VB _ _ _ _ _ (an_int_bytes _ _ _ _ B A) A').
  - destruct A as (k & m & v & A & A' & _). exact (VB _ _ _ _ _ (VB _ _ _ _ _ B A) A').
  - destruct A as (k & f & A & _). exact (an_int_bytes _ _ _ _ B A).
  - destruct A as (k & f & m & v & A & A' & _). exact (VB _ _ _ _ _ (an_int_bytes _ _ _ _ B A) A').
Qed.
(* a maximal reading is the only complete one *)
Lemma field_lines_max dyn ric base p evs l : field_lines dyn ric base p evs l -> (forall q r, ~ field_line dyn ric base l q r) ->
  bytes p -> forall qs, field_lines dyn ric base p qs [] -> qs = evs /\ l = [].
Proof.
  induction 1 as [l|p q m evs l A F IH]; intros N B qs G.
  - inversion G as [|? q m qs' r X]; subst; [auto|]. exfalso. exact (N _ _ X).
  - inversion G as [|? q' m' qs' r X Y]; subst; [exfalso; destruct A as (b & t & E & _); discriminate|].
    destruct (field_line_fun _ _ _ _ _ _ _ _ B A X) as (<- & <-).
    destruct (IH N (field_line_bytes _ _ _ _ _ _ B A) _ Y) as (-> & ->). auto.
Qed.

(* ---------------- the lines of a section ---------------- *)
Theorem lines_run c dyn : smatch c dyn -> forall p s, s_start s -> s_ricnt s <= next_absidx c -> bytes p ->
  match rs_run c s p with
  | ROk s' evs => exists l, field_lines dyn (s_ricnt s) (s_base s) p evs l /\
      (l = [] /\ s_state s' = RsOpcode /\ s_id s' = s_id s /\ s_ricnt s' = s_ricnt s \/
       l <> [] /\ s_state s' <> RsOpcode /\ incomplete dyn (s_ricnt s) (s_base s) l)
  | RErr e s' evs => exists l, field_lines dyn (s_ricnt s) (s_base s) p evs l /\ l <> [] /\ no_line dyn (s_ricnt s) (s_base s) l
  | _ => False
  end.
Proof.
  intros M p. remember (length p) as n eqn:En. revert p En. induction n as [n IH] using (well_founded_induction Wf_nat.lt_wf).
  intros p En s SS LE B. destruct p as [|b u].
  { cbn. exists []. split; [constructor|]. left. destruct SS as (_ & X & _). auto. }
  destruct (line_cases c dyn M s b u SS LE B) as [[(s' & R & W) U]|[[(e & s' & R) U]|(q & r & op & A & Br & R)]].
  - rewrite R. exists (b :: u). split; [constructor|]. right. split; [discriminate|]. auto.
  - rewrite R. exists (b :: u). split; [constructor|]. split; [discriminate|exact U].
  - rewrite R. pose proof (field_line_len _ _ _ _ _ _ A) as L.
    specialize (IH (length r) ltac:(lia) r eq_refl (s_next s op) (s_start_after s op SS) LE Br).
    change (s_ricnt (s_next s op)) with (s_ricnt s) in IH. change (s_base (s_next s op)) with (s_base s) in IH. change (s_id (s_next s op)) with (s_id s) in IH.
    destruct (rs_run c (s_next s op) r) as [s' evs|s' rest evs|e s' evs|]; cbn [rev_]; try exact IH; destruct IH as (l & X & Y); exists l;
      (split; [exact (fl_cons _ _ _ _ _ _ _ _ A X)|exact Y]).
Qed.

(* ---------------- the prefix ---------------- *)
Lemma required_iff c enc ric : 0 <= hard_max c -> 0 <= next_absidx c -> 0 <= enc -> 0 <= ric ->
  (required (hard_max c) (next_absidx c) enc ric <-> reconstruct_ricnt c enc = Ok ric).
Proof.
  intros Hh Hn He Hr. unfold required. split.
  - destruct (Z.eqb_spec ric 0) as [->|N0]; [intros ->; reflexivity|].
    cbv zeta. intros (Hm & Hp & -> & R1). clear He. apply (reconstruct_encoded c (hard_max c / 32) ric eq_refl); [exact Hm|lia|exact R1].
  - unfold reconstruct_ricnt. destruct (Z.eqb_spec enc 0) as [->|E0]; [intros [= <-]; reflexivity|].
    cbv zeta. set (m := hard_max c / 32). assert (0 <= m) by (apply Z.div_pos; lia). set (n := next_absidx c) in *.
    destruct (Z.gtb_spec enc (2 * m)) as [G|G]; [discriminate|]. destruct (Z.eqb_spec (2 * m) 0) as [G2|G2]; [discriminate|].
    assert (Hm : 0 < 2 * m) by lia. pose proof (Z.div_mod (n + m) (2 * m) ltac:(lia)) as DM. pose proof (Z.mod_pos_bound (n + m) (2 * m) Hm) as MB.
    set (k := (n + m) / (2 * m)) in *. assert (0 <= k) by (apply Z.div_pos; lia). assert (0 <= k * (2 * m)) by (apply Z.mul_nonneg_nonneg; lia).
    rewrite (Z.mul_comm (2 * m) k) in DM. set (w := k * (2 * m)) in *.
    assert (M1 : (w + enc - 1) mod (2 * m) = enc - 1).
    { replace (w + enc - 1) with (enc - 1 + k * (2 * m)) by (unfold w; lia). rewrite Z.mod_add by lia. apply Z.mod_small. lia. }
    assert (M2 : (w + enc - 1 - 2 * m) mod (2 * m) = enc - 1).
    { replace (w + enc - 1 - 2 * m) with (enc - 1 + (k - 1) * (2 * m)) by (unfold w; lia). rewrite Z.mod_add by lia. apply Z.mod_small. lia. }
    destruct (Z.gtb_spec (w + enc - 1) (n + m)) as [G3|G3]; destruct (Z.leb_spec (w + enc - 1) (2 * m)) as [G4|G4]; cbn [andb]; try discriminate;
      (match goal with |- context[?x =? 0] => destruct (Z.eqb_spec x 0); [discriminate|] end); (intros E; assert (E' : forall a b : Z, Ok a = Ok b -> a = b) by congruence; apply E' in E; rewrite <- E);
      (match goal with |- context[?x =? 0] => destruct (Z.eqb_spec x 0); [lia|] end); rewrite ?M1, ?M2; clear M1 M2; clearbody w; repeat split; lia.
Qed.

Definition no_prefix (max n : Z) (p : list Z) : Prop := forall ric base r, ~ section_prefix max n p ric base r.
Lemma prefix_cases c id p : ctx_ok c -> bytes p ->
  let s0 := sctx_init id in
  (exists s', rs_run c s0 p = ROk s' [] /\ s_state s' <> RsOpcode /\ no_prefix (hard_max c) (next_absidx c) p) \/
  (exists e s', rs_run c s0 p = RErr e s' [] /\ forall x, bytes x -> no_prefix (hard_max c) (next_absidx c) (p ++ x)) \/
  (exists ric base r, section_prefix (hard_max c) (next_absidx c) p ric base r /\ bytes r /\
     exists s, s_id s = id /\ s_ricnt s = ric /\ s_base s = base /\
     if ric <=? next_absidx c then s_start s /\ rs_run c s0 p = rs_run c s r
     else rs_inv s /\ s_state s = RsBlocked /\ rs_run c s0 p = RStop s r []).
Proof.
  intros CO B s0. pose proof (rs_inv_init id) as I0. fold s0 in I0.
  assert (Hh : 0 <= hard_max c) by (destruct CO as (W & _); pose proof (wf_cap _ W); lia).
  assert (Hn : 0 <= next_absidx c) by (destruct CO as (W & _); pose proof (tab_at_len _ _ _ (wf_tab _ W)); pose proof (zlen_nonneg _ (dtable c)); lia).
  destruct p as [|b0 t0]. { left. exists s0. split; [reflexivity|]. split; [discriminate|]. intros ric base r (enc & b & t & de & _ & A & _). exact (an_int_nil _ _ _ A). }
  set (p := b0 :: t0) in *.
  assert (R : rs_run c s0 p = turn (rs_step c) s0 p (run (rs_step c) 8 rs_rank)) by (apply (rs_turn c CO); auto; [discriminate|left; discriminate]).
  pose proof (rs_inv_go c CO s0 p) as IG. unfold turn in R. assert (E1 : rs_step c s0 p = rs_read_ricnt c s0 p) by reflexivity. rewrite E1 in R, IG.
  unfold rs_read_ricnt in R, IG. change (r_prefix (s_rs s0)) with 8 in R, IG. change (r_left (s_rs s0)) with 0 in R, IG. change (r_shift (s_rs s0)) with 0 in R, IG.
  pose proof (int_cases 8 p ltac:(lia) B ltac:(discriminate)) as Q. destruct (q_read_varint 8 0 0 p) as [[[[enc sh] rest] [|]]|e|]; [| | |destruct Q].
  - destruct Q as (A & He & Br & _).
    assert (U : forall x k r, an_int 8 (p ++ x) k r -> k = enc /\ r = rest ++ x).
    { intros x k r A'. destruct (an_int_fun _ _ _ _ _ _ (an_int_app _ _ _ _ x A) A') as (<- & <-). auto. }
    pose proof (reconstruct_cases c enc CO He) as RC. destruct (reconstruct_ricnt c enc) as [ric|e|] eqn:ER; [| |destruct RC].
    + rewrite rev_nil2 in R. specialize (IG _ _ _ _ I0 B ltac:(discriminate) eq_refl).
      set (s1 := s_set (s_set_ricnt s0 ric) RsDbaseSign (rs_set_int (s_rs s0) enc sh)) in *.
      assert (Rq : required (hard_max c) (next_absidx c) enc ric) by (apply required_iff; auto).
      assert (Ru : forall ric', 0 <= ric' -> required (hard_max c) (next_absidx c) enc ric' -> ric' = ric) by (intros ric' H0 X; apply required_iff in X; auto; congruence).
      destruct rest as [|b1 t1].
      { left. exists s1. split; [rewrite R; reflexivity|]. split; [discriminate|]. intros ric' base r (enc' & b & t & de & _ & A' & _).
        rewrite <- (app_nil_r p) in A'. destruct (U _ _ _ A') as (_ & X). discriminate. }
      set (rest := b1 :: t1) in *.
      assert (R2 : rs_run c s0 p = turn (rs_step c) s1 rest (run (rs_step c) 8 rs_rank)).
      { rewrite R. apply (rs_turn c CO); [exact IG|exact Br|discriminate|left; discriminate]. }
      clear R. rename R2 into R. unfold turn in R.
      set (s2 := if negb (Z.land b1 128 =? 0) then s_set_sign s1 true else s1).
      assert (E2 : rs_step c s1 rest = rs_read_dbase c s2 (rs_set_int (rs_set_prefix (s_rs s2) 7) 0 0) rest) by reflexivity.
      assert (Sg : s_sign s2 = Z.testbit b1 7).
      { unfold s2. pose proof (land_testbit b1 7 ltac:(lia)) as X. change (2 ^ 7) with 128 in X. rewrite X. destruct (Z.testbit b1 7); reflexivity. }
      assert (S2 : s_id s2 = id /\ s_ricnt s2 = ric /\ r_never (s_rs s2) = false) by (unfold s2; destruct (negb _); auto).
      destruct S2 as (S21 & S22 & S23).
      pose proof (rs_inv_go c CO s1 rest) as IG2. pose proof (rs_step_sok c CO s1 rest IG Br) as SOK. rewrite E2 in R, IG2. unfold rs_read_dbase in R, IG2.
      cbn [rs_set_int rs_set_prefix r_prefix r_left r_shift] in R, IG2. rewrite Sg, S22 in R, IG2.
      pose proof (int_cases 7 rest ltac:(lia) Br ltac:(discriminate)) as Q2. destruct (q_read_varint 7 0 0 rest) as [[[[de sh2] r] [|]]|e|]; [| | |destruct Q2].
      * destruct Q2 as (A2 & Hd & Brr & _).
        assert (U2 : forall x k z, an_int 7 (rest ++ x) k z -> k = de /\ z = r ++ x).
        { intros x k z A'. destruct (an_int_fun _ _ _ _ _ _ (an_int_app _ _ _ _ x A2) A') as (<- & <-). auto. }
        destruct (Z.testbit b1 7 && (ric <=? de)) eqn:Neg.
        -- right; left. unfold rs_fail in R. eexists _, _. split; [exact R|]. intros x Bx ric' base z (enc' & b & t & de' & H0 & A' & Rq' & A2' & Hb & Eb).
           destruct (U _ _ _ A') as (-> & E). unfold rest in E. injection E as -> ->. apply Ru in Rq'; [|exact H0]. subst ric'.
           assert (X : de' = de) by (apply (U2 x _ _ A2')). subst de'.
           apply andb_prop in Neg. destruct Neg as (N1 & N2). rewrite N1 in Eb. apply Z.leb_le in N2. lia.
        -- set (base := if Z.testbit b1 7 then ric - de - 1 else ric + de) in *.
           assert (SP : 0 <= base /\ section_prefix (hard_max c) (next_absidx c) p ric base r).
           { assert (Hb : 0 <= base). { unfold base. destruct (Z.testbit b1 7); [|lia]. cbn [andb] in Neg. apply Z.leb_gt in Neg. lia. }
             split; [exact Hb|]. exists enc, b1, t1, de. split; [exact RC|]. split; [exact A|]. split; [exact Rq|]. split; [exact A2|]. auto. }
           destruct SP as (Hb & SP). change (s_ricnt (s_set_base s2 base)) with (s_ricnt s2) in R, IG2. rewrite S22 in R, IG2.
           right; right. exists ric, base, r. split; [exact SP|]. split; [exact Brr|].
           destruct (Z.gtb_spec ric (next_absidx c)) as [G|G]; destruct (Z.leb_spec ric (next_absidx c)) as [G2|G2]; try lia.
           ++ exists (s_set (s_set_base s2 base) RsBlocked (rs_set_int (rs_set_int (rs_set_prefix (s_rs s2) 7) 0 0) de sh2)).
              split; [exact S21|]. split; [exact S22|]. split; [reflexivity|]. split; [|split; [reflexivity|exact R]].
              split; [cbn [s_set s_set_base s_ricnt]; rewrite S22; exact RC|]. split; [exact Hb|exact Coq.Init.Logic.I].
           ++ rewrite rev_nil2 in R. specialize (IG2 _ _ _ _ IG Br ltac:(discriminate) eq_refl).
              exists (s_set (s_set_base s2 base) RsOpcode (rs_set_int (rs_set_int (rs_set_prefix (s_rs s2) 7) 0 0) 0 0)).
              split; [exact S21|]. split; [exact S22|]. split; [reflexivity|]. split; [|exact R]. split; [exact IG2|]. split; [reflexivity|exact S23].
      * left. eexists. split; [exact R|]. split; [discriminate|]. intros ric' base z (enc' & b & t & de' & _ & A' & _ & A2' & _).
        rewrite <- (app_nil_r p) in A'. destruct (U _ _ _ A') as (-> & E). rewrite app_nil_r in E. rewrite E in A2'. exact (Q2 _ _ A2').
      * right; left. unfold rs_fail in R. eexists _, _. split; [exact R|]. intros x Bx ric' base z (enc' & b & t & de' & _ & A' & _ & A2' & _).
        destruct (U _ _ _ A') as (-> & E). rewrite E in A2'. exact (Q2 _ _ _ Bx A2').
    + right; left. unfold rs_fail in R. eexists _, _. split; [exact R|]. intros x Bx ric' base z (enc' & b & t & de' & H0 & A' & Rq' & _).
      destruct (U _ _ _ A') as (-> & _). apply required_iff in Rq'; auto. congruence.
  - left. eexists. split; [exact R|]. split; [discriminate|]. intros ric' base z (enc' & b & t & de' & _ & A' & _). exact (Q _ _ A').
  - right; left. unfold rs_fail in R. eexists _, _. split; [exact R|]. intros x Bx ric' base z (enc' & b & t & de' & _ & A' & _). exact (Q _ _ _ Bx A').
Qed.
