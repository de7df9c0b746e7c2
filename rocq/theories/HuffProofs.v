From Verif Require Import Base BaseLemmas Tables HuffModel HuffSpec HuffPaths ConvProofs.
From Coq Require Import Zify ZifyNat.
Ltac Zify.zify_post_hook ::= Z.div_mod_to_equations.

(* ------------- the code as data ------------- *)
Fixpoint bl_eqb (a b : list bool) : bool :=
  match a, b with
  | [], [] => true
  | x :: a, y :: b => if Bool.eqb x y then bl_eqb a b else false
  | _, _ => false
  end.
Lemma bl_eqb_spec a b : bl_eqb a b = true <-> a = b.
Proof.
  revert b; induction a as [|x a IH]; intros [|y b]; cbn; try (split; congruence).
  destruct x, y; cbn; rewrite ?IH; split; congruence.
Qed.

Definition all_syms : list Z := map Z.of_nat (seq 0 257).
Lemma all_syms_in s : 0 <= s <= 256 <-> In s all_syms.
Proof.
  unfold all_syms; rewrite in_map_iff. split.
  - intros; exists (Z.to_nat s); split; [lia|apply in_seq; lia].
  - intros (x & <- & H). apply in_seq in H; lia.
Qed.

(* code table computed once *)
Definition code_tbl : list (list bool) := Eval vm_compute in map rfc_huff_code all_syms.
Definition code (s : Z) : list bool := nth (Z.to_nat s) code_tbl [].
Lemma code_rfc s : 0 <= s <= 256 -> rfc_huff_code s = code s.
Proof.
  intros H.
  assert (E : map rfc_huff_code all_syms = code_tbl) by (vm_compute; reflexivity).
  unfold code. rewrite <- E.
  replace (Z.to_nat s) with (Z.to_nat s + 0)%nat by lia.
  rewrite (nth_indep _ [] (rfc_huff_code 0)) by (unfold all_syms; rewrite !map_length, seq_length; lia).
  rewrite map_nth. f_equal. unfold all_syms.
  rewrite (nth_indep _ _ (Z.of_nat 0)) by (rewrite map_length, seq_length; lia).
  rewrite map_nth, seq_nth by lia. lia.
Qed.

Definition code_pairs : list (Z * list bool) := Eval vm_compute in map (fun s => (s, code s)) all_syms.
Definition find_sym (p : list bool) : option Z :=
  match find (fun e => bl_eqb (snd e) p) code_pairs with Some e => Some (fst e) | None => None end.
Lemma find_sym_code p s : find_sym p = Some s -> code s = p /\ 0 <= s <= 256.
Proof.
  unfold find_sym; intros H. destruct (find _ code_pairs) as [e|] eqn:F; [|discriminate].
  injection H as <-. apply find_some in F as [H1 H2]. apply bl_eqb_spec in H2.
  assert (E : code_pairs = map (fun s => (s, code s)) all_syms) by (vm_compute; reflexivity).
  rewrite E in H1. apply in_map_iff in H1 as (x & <- & Hx). cbn [fst snd] in *.
  split; [auto|apply all_syms_in; auto].
Qed.

(* ------------- bit-level reference decoder ------------- *)
(* [walk p bits]: symbols completed and the path since the last one *)
Fixpoint walk (p : list bool) (bits : list bool) : list Z * list bool :=
  match bits with
  | [] => ([], p)
  | b :: t =>
    match find_sym (p ++ [b]) with
    | Some s => let '(o, q) := walk [] t in (s :: o, q)
    | None => walk (p ++ [b]) t
    end
  end.

Lemma walk_app bits1 : forall p bits2,
  walk p (bits1 ++ bits2) =
  let '(o1, q) := walk p bits1 in let '(o2, r) := walk q bits2 in (o1 ++ o2, r).
Proof.
  induction bits1 as [|b t IH]; intros p bits2; cbn [app walk].
  - destruct (walk p bits2); reflexivity.
  - destruct (find_sym (p ++ [b])) as [s|].
    + rewrite IH. destruct (walk [] t) as [o1 q], (walk q bits2); reflexivity.
    + rewrite IH. reflexivity.
Qed.

Lemma walk_sound bits : forall p o q, walk p bits = (o, q) ->
  p ++ bits = flat_map code o ++ q /\ Forall (fun s => 0 <= s <= 256) o.
Proof.
  induction bits as [|b t IH]; intros p o q; cbn [walk].
  - intros [= <- <-]. rewrite app_nil_r; split; [reflexivity|constructor].
  - destruct (find_sym (p ++ [b])) as [s|] eqn:E.
    + destruct (walk [] t) as [o' q'] eqn:W. intros [= <- <-].
      apply IH in W as [W1 W2]. apply find_sym_code in E as [E1 E2].
      split; [|constructor; auto]. cbn [flat_map]. rewrite E1, <- app_assoc, <- W1, <- app_assoc. reflexivity.
    + intros W. apply IH in W as [W1 W2]. split; [|auto].
      rewrite <- W1, <- app_assoc. reflexivity.
Qed.

Lemma walk_code s : 0 <= s <= 256 -> walk [] (code s) = ([s], []).
Proof.
  intros H. apply all_syms_in in H.
  assert (T : forallb (fun s => match walk [] (code s) with
                      | ([x], []) => x =? s | _ => false end) all_syms = true) by (vm_compute; reflexivity).
  rewrite forallb_forall in T. specialize (T s H).
  destruct (walk [] (code s)) as [[|x [|? ?]] [|? ?]]; try discriminate.
  apply Z.eqb_eq in T; subst; reflexivity.
Qed.

Lemma walk_codes l : Forall (fun s => 0 <= s <= 256) l -> walk [] (flat_map code l) = (l, []).
Proof.
  induction 1 as [|s l Hs Hl IH]; cbn [flat_map]; [reflexivity|].
  rewrite walk_app, walk_code by auto. rewrite IH. reflexivity.
Qed.

Lemma walk_pad pad : (length pad <= 7)%nat -> Forall (fun b => b = true) pad -> walk [] pad = ([], pad).
Proof.
  intros HL HF. assert (E : pad = repeat true (length pad)).
  { clear HL; induction HF as [|b l Hb Hl IH]; cbn; [auto|rewrite Hb, <- IH; auto]. }
  rewrite E. remember (length pad) as n. clear -HL.
  assert (T : forallb (fun n => match walk [] (repeat true n) with
     ([], q) => bl_eqb q (repeat true n) | _ => false end) (seq 0 8) = true) by (vm_compute; reflexivity).
  rewrite forallb_forall in T. specialize (T n ltac:(apply in_seq; lia)).
  destruct (walk [] (repeat true n)) as [[|? ?] q]; [|discriminate].
  apply bl_eqb_spec in T; subst; auto.
Qed.

(* ------------- the automaton ------------- *)
Definition path_of (st : Z) : list bool := nth (Z.to_nat st) huff_paths [].
Definition nib_bits (n : Z) : list bool := bits_of 4 n.
Definition accepting (p : list bool) : bool := (length p <=? 7)%nat && forallb (fun b => b) p.

(* everything the tables must satisfy, for one state and one nibble *)
Definition entry_ok (st nib : Z) : bool :=
  match huff_step st nib with
  | None => false
  | Some (fs, out) =>
    let st' := Z.land fs 511 in
    let '(o, q) := walk (path_of st) (nib_bits nib) in
    if st' =? 256
    then existsb (Z.eqb 256) o && (fs =? 256) && (length out =? 0)%nat
    else (0 <=? st') && (st' <? 256) && (length o <=? 1)%nat
         && (if list_eq_dec Z.eq_dec o out then true else false)
         && negb (existsb (Z.eqb 256) o)
         && bl_eqb q (path_of st')
         && Bool.eqb (negb (Z.land fs HUFF_ACCEPTED =? 0)) (accepting (path_of st'))
  end.
Lemma entries_ok : forallb (fun st => forallb (entry_ok st) (map Z.of_nat (seq 0 16)))
                     (map Z.of_nat (seq 0 256)) = true.
Proof. vm_compute. reflexivity. Qed.
Lemma fail_row_ok : forallb (fun nib => match huff_step 256 nib with
   | Some (fs, []) => fs =? 256 | _ => false end) (map Z.of_nat (seq 0 16)) = true.
Proof. vm_compute. reflexivity. Qed.

Lemma in_range n k : 0 <= n < Z.of_nat k -> In n (map Z.of_nat (seq 0 k)).
Proof. intros H; apply in_map_iff; exists (Z.to_nat n); split; [lia|apply in_seq; lia]. Qed.

Lemma huff_step_land fs nib : huff_step fs nib = huff_step (Z.land fs 511) nib.
Proof. unfold huff_step. rewrite <- Z.land_assoc. reflexivity. Qed.

(* state reached after the bits [bits] from the root, having emitted [out] *)
Definition hstate (fs : Z) (bits : list bool) (out : list Z) : Prop :=
  if Z.land fs 511 =? 256
  then fs = 256 /\ Exists (fun s => s = 256) (fst (walk [] bits))
  else 0 <= Z.land fs 511 < 256 /\ walk [] bits = (out, path_of (Z.land fs 511)) /\
       Forall is_byte out /\
       negb (Z.land fs HUFF_ACCEPTED =? 0) = accepting (path_of (Z.land fs 511)).

Lemma existsb256 o : existsb (Z.eqb 256) o = true <-> Exists (fun s => s = 256) o.
Proof.
  rewrite existsb_exists, Exists_exists. split; intros (x & H1 & H2); exists x; split; auto; lia.
Qed.

Lemma huff_step_state fs bits out nib : hstate fs bits out -> 0 <= nib < 16 ->
  exists fs' o, huff_step fs nib = Some (fs', o) /\ hstate fs' (bits ++ nib_bits nib) (out ++ o) /\
    (length o <= 1)%nat.
Proof.
  intros H Hn. rewrite huff_step_land. unfold hstate in H.
  destruct (Z.eqb_spec (Z.land fs 511) 256) as [E|E].
  - destruct H as [-> HE]. rewrite E.
    pose proof fail_row_ok as F. rewrite forallb_forall in F. specialize (F nib (in_range nib 16 Hn)).
    destruct (huff_step 256 nib) as [[fs' o]|] eqn:S; [|discriminate].
    exists fs', o. destruct o; [|discriminate]. apply Z.eqb_eq in F; subst fs'.
    split; [auto|]. split; [|cbn; lia]. unfold hstate. cbn [Z.land].
    change (Z.land 256 511 =? 256) with true. cbv iota. split; [auto|].
    rewrite walk_app. destruct (walk [] bits) as [o1 q]. destruct (walk q (nib_bits nib)).
    cbn [fst] in *. apply Exists_app; auto.
  - destruct H as (R & W & FB & A).
    pose proof entries_ok as F. rewrite forallb_forall in F.
    specialize (F _ (in_range _ 256 R)). rewrite forallb_forall in F.
    specialize (F nib (in_range nib 16 Hn)). unfold entry_ok in F.
    destruct (huff_step (Z.land fs 511) nib) as [[fs' o]|]; [|discriminate].
    exists fs', o. split; [auto|].
    destruct (walk (path_of (Z.land fs 511)) (nib_bits nib)) as [o2 q] eqn:W2.
    unfold hstate. rewrite walk_app, W, W2.
    destruct (Z.eqb_spec (Z.land fs' 511) 256) as [E'|E'].
    + apply andb_true_iff in F as [F F3]. apply andb_true_iff in F as [F1 F2].
      apply existsb256 in F1. cbn [fst]. split; [split; [lia|apply Exists_app; auto]|].
      apply Nat.eqb_eq in F3; lia.
    + repeat (apply andb_true_iff in F as [F ?]).
      destruct (list_eq_dec Z.eq_dec o2 o) as [->|]; [|discriminate].
      match goal with H : bl_eqb _ _ = true |- _ => apply bl_eqb_spec in H; subst q end.
      match goal with H : Bool.eqb _ _ = true |- _ => apply eqb_prop in H end.
      split; [|lia]. split; [lia|]. split; [auto|]. split; [|auto].
      apply Forall_app; split; [auto|].
      apply walk_sound in W2 as [_ W2].
      match goal with H : negb (existsb _ _) = true |- _ => apply negb_true_iff in H; rename H into NX end.
      clear -W2 NX. induction W2 as [|s l Hs Hl IH]; [constructor|].
      cbn [existsb] in NX. apply orb_false_iff in NX as [N1 N2].
      constructor; [unfold is_byte; lia|auto].
Qed.

Lemma hstate_init : hstate huff_init [] [].
Proof.
  unfold hstate, huff_init. change (Z.land HUFF_ACCEPTED 511) with 0. cbn [Z.eqb].
  split; [lia|]. repeat split; auto.
Qed.

Lemma byte_nibbles c : is_byte c ->
  0 <= Z.shiftr c 4 < 16 /\ 0 <= Z.land c 15 < 16 /\
  nib_bits (Z.shiftr c 4) ++ nib_bits (Z.land c 15) = bits_of 8 c.
Proof.
  intros H.
  assert (T : forallb (fun c => (0 <=? Z.shiftr c 4) && (Z.shiftr c 4 <? 16) && (0 <=? Z.land c 15) && (Z.land c 15 <? 16)
     && bl_eqb (nib_bits (Z.shiftr c 4) ++ nib_bits (Z.land c 15)) (bits_of 8 c)) all_bytes = true)
    by (vm_compute; reflexivity).
  pose proof (byte_sweep _ T c H) as T'. cbv beta in T'.
  repeat (apply andb_true_iff in T' as [T' ?]).
  match goal with H : bl_eqb _ _ = true |- _ => apply bl_eqb_spec in H end.
  repeat split; auto; lia.
Qed.

Lemma huff_loop_state src : forall fs bits out, bytes src -> hstate fs bits out ->
  exists fs' o, huff_loop fs src = Some (fs', o) /\
    hstate fs' (bits ++ bits_of_bytes src) (out ++ o) /\ zlen o <= 2 * zlen src.
Proof.
  induction src as [|c t IH]; intros fs bits out Hb Hs; cbn [huff_loop bits_of_bytes flat_map].
  - exists fs, []. rewrite !app_nil_r. split; [auto|split; [auto|cbn; lia]].
  - apply bytes_cons in Hb as [Hc Ht]. destruct (byte_nibbles c Hc) as (N1 & N2 & NB).
    destruct (huff_step_state fs bits out _ Hs N1) as (f1 & o1 & -> & S1 & L1).
    destruct (huff_step_state _ _ _ _ S1 N2) as (f2 & o2 & -> & S2 & L2).
    destruct (IH f2 _ _ Ht S2) as (f3 & o3 & -> & S3 & L3).
    exists f3, (o1 ++ o2 ++ o3). split; [auto|]. split.
    + rewrite <- NB. unfold bits_of_bytes in S3. rewrite !app_assoc. rewrite <- !app_assoc in S3 |- *. exact S3.
    + rewrite !zlen_app, zlen_cons. unfold zlen in *. lia.
Qed.

Lemma huff_loop_app a b fs : huff_loop fs (a ++ b) =
  match huff_loop fs a with
  | None => None
  | Some (f1, o1) => match huff_loop f1 b with
                     | None => None
                     | Some (f2, o2) => Some (f2, o1 ++ o2)
                     end
  end.
Proof.
  revert fs; induction a as [|c t IH]; intros fs; cbn [app huff_loop].
  - destruct (huff_loop fs b) as [[? ?]|]; reflexivity.
  - destruct (huff_step fs (Z.shiftr c 4)) as [[f1 o1]|]; [|reflexivity].
    destruct (huff_step f1 (Z.land c 15)) as [[f2 o2]|]; [|reflexivity].
    rewrite IH. destruct (huff_loop f2 t) as [[f3 o3]|]; [|reflexivity].
    destruct (huff_loop f3 b) as [[f4 o4]|]; [|reflexivity].
    rewrite <- !app_assoc. reflexivity.
Qed.

Lemma code_bytes_rfc l : bytes l -> flat_map rfc_huff_code l = flat_map code l.
Proof.
  induction 1 as [|b l Hb Hl IH]; cbn [flat_map]; [auto|].
  unfold is_byte in Hb. rewrite IH, code_rfc by lia. reflexivity.
Qed.
Lemma bytes_syms l : bytes l -> Forall (fun s => 0 <= s <= 256) l.
Proof. apply Forall_impl. unfold is_byte; intros; lia. Qed.

Lemma accepting_spec p : accepting p = true <-> (length p <= 7)%nat /\ Forall (fun b => b = true) p.
Proof.
  unfold accepting. rewrite andb_true_iff, Nat.leb_le, forallb_forall, Forall_forall. reflexivity.
Qed.

(* C06 + completeness: acceptance of a whole string is exactly representation. *)
Lemma huff_decode_iff src dst : bytes src ->
  ((exists fs, huff_decode huff_init src true = Ok (fs, dst)) <-> huff_represents src dst).
Proof.
  intros Hb. unfold huff_decode.
  destruct (huff_loop_state src huff_init [] [] Hb hstate_init) as (fs & o & -> & S & _).
  cbn [app] in S. unfold hstate in S. split.
  - intros (fs' & H).
    destruct (Z.land fs HUFF_ACCEPTED =? 0) eqn:A; [discriminate|]. cbn in H.
    injection H as <- <-.
    destruct (Z.eqb_spec (Z.land fs 511) 256) as [E|E].
    { destruct S as [-> _]. discriminate. }
    destruct S as (R & W & F & ACC). cbn [negb] in ACC. symmetry in ACC. apply accepting_spec in ACC as [P1 P2].
    split; [auto|]. exists (path_of (Z.land fs 511)).
    apply walk_sound in W as [W _]. rewrite code_bytes_rfc by auto. auto.
  - intros (Hd & pad & E & P1 & P2).
    assert (W : walk [] (bits_of_bytes src) = (dst, pad)).
    { rewrite E, code_bytes_rfc by auto. rewrite walk_app, walk_codes by (apply bytes_syms; auto).
      rewrite walk_pad by auto. rewrite app_nil_r. reflexivity. }
    rewrite W in S.
    destruct (Z.eqb_spec (Z.land fs 511) 256) as [E'|E'].
    { destruct S as [_ S]. cbn [fst] in S. apply Exists_exists in S as (x & H1 & ->).
      exfalso. pose proof (proj1 (Forall_forall _ _) Hd _ H1) as Q. unfold is_byte in Q. lia. }
    destruct S as (R & S & F & ACC). injection S as <- Ep.
    rewrite <- Ep in ACC. rewrite (proj2 (accepting_spec pad)) in ACC by auto.
    apply negb_true_iff in ACC. rewrite ACC. cbn. eauto.
Qed.

Lemma huff_decode_never_aborts src fin : bytes src ->
  match huff_decode huff_init src fin with
  | Ok (_, out) => zlen out <= 2 * zlen src /\ bytes out \/ fin = false
  | Err e => e = ERR_QPACK_FATAL
  | Abort => False
  end.
Proof.
  intros Hb. unfold huff_decode.
  destruct (huff_loop_state src huff_init [] [] Hb hstate_init) as (fs & o & -> & S & L).
  destruct fin; cbn [andb]; [|auto].
  destruct (Z.land fs HUFF_ACCEPTED =? 0) eqn:A; [reflexivity|]. left. split; [lia|].
  unfold hstate in S. destruct (Z.eqb_spec (Z.land fs 511) 256) as [E|E].
  { destruct S as [-> _]. discriminate. }
  tauto.
Qed.

(* ------------- encoder ------------- *)
Lemma bits_of_length k n : length (bits_of k n) = k.
Proof. induction k; cbn; auto. Qed.

Lemma bits_of_app a b x y : 0 <= y < 2 ^ Z.of_nat b ->
  bits_of (a + b) (x * 2 ^ Z.of_nat b + y) = bits_of a x ++ bits_of b y.
Proof.
  intros Hy. assert (P : 0 < 2 ^ Z.of_nat b) by (apply Z.pow_pos_nonneg; lia).
  induction a as [|a IH]; cbn [Nat.add bits_of app].
  - assert (G : forall c, (c <= b)%nat -> bits_of c (x * 2 ^ Z.of_nat b + y) = bits_of c y).
    { induction c as [|c IHc]; intros Hc; cbn [bits_of]; [auto|]. rewrite IHc by lia. f_equal.
      rewrite !Z.testbit_odd, !Z.shiftr_div_pow2 by lia.
      replace (Z.of_nat b) with (Z.of_nat c + (1 + (Z.of_nat b - Z.of_nat c - 1))) by lia.
      rewrite !Z.pow_add_r by lia. change (2^1) with 2.
      set (Q := 2 ^ (Z.of_nat b - Z.of_nat c - 1)).
      replace (x * (2 ^ Z.of_nat c * (2 * Q)) + y) with (y + (2 * (x * Q)) * 2 ^ Z.of_nat c) by lia.
      rewrite Z.div_add by (apply Z.pow_nonzero; lia).
      rewrite Z.odd_add_mul_2. reflexivity. }
    apply G; lia.
  - rewrite IH. f_equal.
    rewrite !Z.testbit_odd, !Z.shiftr_div_pow2 by lia.
    replace (Z.of_nat (a + b)) with (Z.of_nat b + Z.of_nat a) by lia.
    rewrite Z.pow_add_r by lia. rewrite <- Z.div_div by (try apply Z.pow_pos_nonneg; try apply Z.pow_nonzero; lia).
    rewrite Z.div_add_l by lia. rewrite (Z.div_small y) by lia. rewrite Z.add_0_r. reflexivity.
Qed.

Lemma bits_of_bytes_app a b : bits_of_bytes (a ++ b) = bits_of_bytes a ++ bits_of_bytes b.
Proof. apply flat_map_app. Qed.

Lemma bits_of_be_bytes k n : 0 <= n < 256 ^ Z.of_nat k -> bits_of_bytes (be_bytes k n) = bits_of (8 * k) n.
Proof.
  revert n; induction k as [|k IH]; intros n Hn; [reflexivity|].
  cbn [be_bytes bits_of_bytes flat_map]. fold (bits_of_bytes (be_bytes k n)).
  assert (P : 0 < 256 ^ Z.of_nat k) by (apply Z.pow_pos_nonneg; lia).
  assert (E : be_bytes k n = be_bytes k (n mod 256 ^ Z.of_nat k)).
  { clear IH Hn. assert (G : forall j, (j <= k)%nat -> be_bytes j n = be_bytes j (n mod 256 ^ Z.of_nat k)).
    { induction j as [|j IHj]; intros Hj; cbn [be_bytes]; [auto|]. rewrite <- IHj by lia. f_equal.
      replace (Z.of_nat k) with (Z.of_nat j + (1 + (Z.of_nat k - Z.of_nat j - 1))) by lia.
      rewrite !Z.pow_add_r by lia. change (256^1) with 256.
      set (A := 256 ^ Z.of_nat j). set (B := 256 ^ (Z.of_nat k - Z.of_nat j - 1)).
      assert (0 < A) by (apply Z.pow_pos_nonneg; lia). assert (0 < B) by (apply Z.pow_pos_nonneg; lia).
      rewrite Z.rem_mul_r by nia.
      replace (n mod A + A * (n / A mod (256 * B))) with (n mod A + (n / A mod (256 * B)) * A) by lia.
      rewrite Z.div_add by lia. rewrite (Z.div_small (n mod A)) by (apply Z.mod_pos_bound; lia).
      rewrite Z.add_0_l. rewrite Z.rem_mul_r by lia.
      rewrite (Z.mul_comm 256), Z.mod_add by lia. rewrite Z.mod_mod by lia. reflexivity. }
    apply G; lia. }
  rewrite E, IH by (apply Z.mod_pos_bound; lia).
  assert (D : n / 256 ^ Z.of_nat k < 256).
  { apply Z.div_lt_upper_bound; [lia|]. replace (Z.of_nat (S k)) with (Z.of_nat k + 1) in Hn by lia.
    rewrite Z.pow_add_r in Hn by lia. change (256^1) with 256 in Hn. lia. }
  assert (D0 : 0 <= n / 256 ^ Z.of_nat k) by (apply Z.div_pos; lia).
  rewrite (Z.mod_small (n / _)) by lia.
  replace (8 * S k)%nat with (8 + 8 * k)%nat by lia.
  assert (PP : 2 ^ Z.of_nat (8 * k) = 256 ^ Z.of_nat k).
  { replace (Z.of_nat (8 * k)) with (8 * Z.of_nat k) by lia. rewrite Z.pow_mul_r by lia. reflexivity. }
  rewrite <- bits_of_app by (rewrite PP; apply Z.mod_pos_bound; lia).
  f_equal. rewrite PP. rewrite Z.mul_comm. symmetry. apply Z.div_mod. lia.
Qed.

(* the symbol table against the code *)
Lemma sym_tbl_ok s : is_byte s ->
  5 <= sym_nbits s <= 30 /\ 0 <= sym_code s / 2 ^ (32 - sym_nbits s) < 2 ^ sym_nbits s /\
  sym_code s = sym_code s / 2 ^ (32 - sym_nbits s) * 2 ^ (32 - sym_nbits s) /\
  bits_of (Z.to_nat (sym_nbits s)) (sym_code s / 2 ^ (32 - sym_nbits s)) = code s.
Proof.
  intros H.
  assert (T : forallb (fun s => (5 <=? sym_nbits s) && (sym_nbits s <=? 30) &&
     (0 <=? sym_code s / 2 ^ (32 - sym_nbits s)) && (sym_code s / 2 ^ (32 - sym_nbits s) <? 2 ^ sym_nbits s) &&
     (sym_code s =? sym_code s / 2 ^ (32 - sym_nbits s) * 2 ^ (32 - sym_nbits s)) &&
     bl_eqb (bits_of (Z.to_nat (sym_nbits s)) (sym_code s / 2 ^ (32 - sym_nbits s))) (code s)) all_bytes = true)
    by (vm_compute; reflexivity).
  pose proof (byte_sweep _ T s H) as T'. cbv beta in T'.
  rewrite !andb_true_iff, !Z.leb_le, !Z.ltb_lt, Z.eqb_eq, bl_eqb_spec in T'. tauto.
Qed.

(* lor of a value with zero low bits and a small one *)
Lemma lor_add_low x k y : 0 <= k -> 0 <= y < 2 ^ k -> Z.lor (x * 2 ^ k) y = x * 2 ^ k + y.
Proof.
  intros Hk Hy. apply lor_disjoint. rewrite Z.land_comm. apply land_low_high; auto.
Qed.

Lemma mul_bound a b c : 0 <= a < b -> 0 < c -> 0 <= a * c < b * c.
Proof. intros; nia. Qed.
Lemma mul_bound' a b c d : 0 <= a < b -> 0 < c -> 0 <= d < c -> 0 <= a * c + d < b * c.
Proof. intros; nia. Qed.
Lemma pow_split a b c : a = b + c -> 0 <= b -> 0 <= c -> 2 ^ a = 2 ^ b * 2 ^ c.
Proof. intros -> ? ?; apply Z.pow_add_r; auto. Qed.
Lemma pow_pos k : 0 <= k -> 0 < 2 ^ k.
Proof. intros; apply Z.pow_pos_nonneg; lia. Qed.

(* loop invariant: [code] carries the [nb] bits [pend] at its top *)
Lemma huff_enc_loop_spec src : forall pend nb, bytes src -> 0 <= nb < 32 -> 0 <= pend < 2 ^ nb ->
  exists o pend' nb', huff_enc_loop src (pend * 2 ^ (64 - nb)) nb = (o, pend' * 2 ^ (64 - nb'), nb') /\
    bytes o /\ 0 <= nb' < 32 /\ 0 <= pend' < 2 ^ nb' /\
    bits_of_bytes o ++ bits_of (Z.to_nat nb') pend' = bits_of (Z.to_nat nb) pend ++ flat_map code src.
Proof.
  induction src as [|s t IH]; intros pend nb Hb Hnb Hp.
  - exists [], pend, nb. cbn. rewrite app_nil_r. repeat split; auto; try lia; try constructor.
  - apply bytes_cons in Hb as [Hs Ht].
    destruct (sym_tbl_ok s Hs) as (L & C1 & C2 & C3).
    cbn [huff_enc_loop flat_map].
    set (n := sym_nbits s) in *. set (c := sym_code s / 2 ^ (32 - n)) in *.
    assert (Esh : Z.shiftl (sym_code s) (32 - nb) mod 2 ^ 64 = c * 2 ^ (64 - nb - n)).
    { rewrite Z.shiftl_mul_pow2 by lia. rewrite C2. rewrite <- Z.mul_assoc, <- Z.pow_add_r by lia.
      replace (32 - n + (32 - nb)) with (64 - nb - n) by lia.
      apply Z.mod_small.
      destruct (mul_bound c (2 ^ n) (2 ^ (64 - nb - n)) C1 (pow_pos (64 - nb - n) ltac:(lia))) as [Q1 Q2].
      split; [exact Q1|]. eapply Z.lt_le_trans; [exact Q2|].
      rewrite <- Z.pow_add_r by lia. apply Z.pow_le_mono_r; lia. }
    rewrite Esh.
    assert (Elor : Z.lor (pend * 2 ^ (64 - nb)) (c * 2 ^ (64 - nb - n)) = (pend * 2 ^ n + c) * 2 ^ (64 - (nb + n))).
    { assert (E64 : 2 ^ (64 - nb) = 2 ^ n * 2 ^ (64 - nb - n))
        by (rewrite <- Z.pow_add_r by lia; f_equal; lia).
      rewrite lor_add_low; [|lia|].
      - rewrite E64. replace (64 - (nb + n)) with (64 - nb - n) by lia. ring.
      - rewrite E64. apply mul_bound; [auto|apply pow_pos; lia]. }
    rewrite Elor.
    set (P := pend * 2 ^ n + c).
    assert (HP : 0 <= P < 2 ^ (nb + n)).
    { subst P. rewrite Z.pow_add_r by lia. apply mul_bound'; auto. apply pow_pos; lia. }
    assert (BP : bits_of (Z.to_nat (nb + n)) P = bits_of (Z.to_nat nb) pend ++ code s).
    { rewrite Z2Nat.inj_add by lia. subst P. rewrite <- C3. 
      rewrite <- bits_of_app by (rewrite Z2Nat.id; lia). rewrite Z2Nat.id by lia. reflexivity. }
    destruct (Z.ltb_spec (nb + n) 32) as [Hlt|Hge].
    + destruct (IH P (nb + n) Ht ltac:(lia) HP) as (o & pend' & nb' & E1 & B & H1 & H2 & E2).
      exists o, pend', nb'. repeat split; auto; try lia. rewrite E2, BP, <- app_assoc. reflexivity.
    + set (m := nb + n - 32) in *.
      assert (Hm : 0 <= m < 30) by lia.
      set (hi := P / 2 ^ m). set (lo := P mod 2 ^ m).
      assert (Pm : 0 < 2 ^ m) by (apply Z.pow_pos_nonneg; lia).
      assert (Ehl : P = hi * 2 ^ m + lo) by (subst hi lo; rewrite Z.mul_comm; apply Z.div_mod; lia).
      assert (Hlo : 0 <= lo < 2 ^ m) by (subst lo; apply Z.mod_pos_bound; lia).
      assert (Hhi : 0 <= hi < 2 ^ 32).
      { subst hi; split; [apply Z.div_pos; lia|]. apply Z.div_lt_upper_bound; [lia|].
        rewrite <- Z.pow_add_r by lia. replace (m + 32) with (nb + n) by lia. lia. }
      assert (Ecode : P * 2 ^ (64 - (nb + n)) = hi * 2 ^ 32 + lo * 2 ^ (32 - m)).
      { rewrite Ehl. replace (64 - (nb + n)) with (32 - m) by lia.
        rewrite (pow_split 32 m (32 - m)) by lia. ring. }
      assert (Hlo2 : 0 <= lo * 2 ^ (32 - m) < 2 ^ 32).
      { rewrite (pow_split 32 m (32 - m)) by lia. apply mul_bound; [auto|apply pow_pos; lia]. }
      assert (Eout : Z.shiftr (P * 2 ^ (64 - (nb + n))) 32 mod 2 ^ 32 = hi).
      { rewrite Ecode, Z.shiftr_div_pow2 by lia. rewrite Z.div_add_l by lia.
        rewrite (Z.div_small (lo * _)) by lia. rewrite Z.add_0_r. apply Z.mod_small; lia. }
      assert (Ecode' : Z.shiftl (P * 2 ^ (64 - (nb + n))) 32 mod 2 ^ 64 = lo * 2 ^ (64 - m)).
      { rewrite Ecode, Z.shiftl_mul_pow2 by lia.
        replace ((hi * 2 ^ 32 + lo * 2 ^ (32 - m)) * 2 ^ 32) with (lo * (2 ^ (32 - m) * 2 ^ 32) + hi * 2 ^ 64)
          by (change (2^64) with (2^32*2^32); ring).
        rewrite Z.mod_add by lia. rewrite <- Z.pow_add_r by lia.
        replace (32 - m + 32) with (64 - m) by lia. apply Z.mod_small.
        rewrite (pow_split 64 m (64 - m)) by lia. apply mul_bound; [auto|apply pow_pos; lia]. }
      rewrite Eout, Ecode'.
      destruct (IH lo m Ht ltac:(lia) Hlo) as (o & pend' & nb' & E1 & B & H1 & H2 & E2).
      fold m. rewrite E1.
      exists (be_bytes 4 hi ++ o), pend', nb'. repeat split; auto; try lia.
      * apply bytes_app; split; [apply be_bytes_bytes|auto].
      * rewrite bits_of_bytes_app, <- app_assoc, E2.
        rewrite bits_of_be_bytes by (change (256 ^ Z.of_nat 4) with (2^32); auto).
        rewrite app_assoc. change (8 * 4)%nat with 32%nat. rewrite app_assoc, <- BP. f_equal.
        replace (Z.to_nat (nb + n)) with (32 + Z.to_nat m)%nat by lia.
        pose proof (bits_of_app 32 (Z.to_nat m) hi lo) as X. rewrite Z2Nat.id in X by lia.
        rewrite <- X by lia. rewrite <- Ehl. reflexivity.
Qed.

Lemma huff_enc_flush_spec f : forall pend nb, 0 <= nb < 8 * Z.of_nat f + 8 -> nb <= 56 -> 0 <= pend < 2 ^ nb ->
  exists o pend' nb', huff_enc_flush f (pend * 2 ^ (64 - nb)) nb = (o, pend' * 2 ^ (64 - nb'), nb') /\
    bytes o /\ 0 <= nb' < 8 /\ 0 <= pend' < 2 ^ nb' /\
    bits_of_bytes o ++ bits_of (Z.to_nat nb') pend' = bits_of (Z.to_nat nb) pend.
Proof.
  induction f as [|f IH]; intros pend nb Hnb Hmax Hp; cbn [huff_enc_flush].
  - exists [], pend, nb. cbn. repeat split; auto; try lia; try constructor.
  - destruct (Z.geb_spec nb 8) as [Hge|Hlt].
    + set (m := nb - 8). assert (Hm : 0 <= m) by lia.
      set (hi := pend / 2 ^ m). set (lo := pend mod 2 ^ m).
      assert (Pm : 0 < 2 ^ m) by (apply Z.pow_pos_nonneg; lia).
      assert (Ehl : pend = hi * 2 ^ m + lo) by (subst hi lo; rewrite Z.mul_comm; apply Z.div_mod; lia).
      assert (Hlo : 0 <= lo < 2 ^ m) by (subst lo; apply Z.mod_pos_bound; lia).
      assert (Hhi : 0 <= hi < 2 ^ 8).
      { subst hi; split; [apply Z.div_pos; lia|]. apply Z.div_lt_upper_bound; [lia|].
        rewrite <- Z.pow_add_r by lia. replace (m + 8) with nb by lia. lia. }
      assert (Ecode : pend * 2 ^ (64 - nb) = hi * 2 ^ 56 + lo * 2 ^ (56 - m)).
      { rewrite Ehl. replace (64 - nb) with (56 - m) by lia.
        rewrite (pow_split 56 m (56 - m)) by lia. ring. }
      assert (Hlo2 : 0 <= lo * 2 ^ (56 - m) < 2 ^ 56).
      { rewrite (pow_split 56 m (56 - m)) by lia. apply mul_bound; [auto|apply pow_pos; lia]. }
      assert (Eout : Z.shiftr (pend * 2 ^ (64 - nb)) 56 mod 256 = hi).
      { rewrite Ecode, Z.shiftr_div_pow2 by lia. rewrite Z.div_add_l by lia.
        rewrite (Z.div_small (lo * _)) by lia. rewrite Z.add_0_r. apply Z.mod_small; change (2^8) with 256 in *; lia. }
      assert (Ecode' : Z.shiftl (pend * 2 ^ (64 - nb)) 8 mod 2 ^ 64 = lo * 2 ^ (64 - m)).
      { rewrite Ecode, Z.shiftl_mul_pow2 by lia.
        replace ((hi * 2 ^ 56 + lo * 2 ^ (56 - m)) * 2 ^ 8) with (lo * (2 ^ (56 - m) * 2 ^ 8) + hi * 2 ^ 64)
          by (change (2^64) with (2^56*2^8); ring).
        rewrite Z.mod_add by lia. rewrite <- Z.pow_add_r by lia.
        replace (56 - m + 8) with (64 - m) by lia. apply Z.mod_small.
        rewrite (pow_split 64 m (64 - m)) by lia. apply mul_bound; [auto|apply pow_pos; lia]. }
      rewrite Eout, Ecode'. fold m.
      destruct (IH lo m ltac:(lia) ltac:(lia) Hlo) as (o & pend' & nb' & E1 & B & H1 & H2 & E2).
      rewrite E1. exists (hi :: o), pend', nb'. repeat split; auto; try lia.
      * apply bytes_cons; split; [unfold is_byte; change (2^8) with 256 in *; lia|auto].
      * cbn [bits_of_bytes flat_map]. fold (bits_of_bytes o). rewrite <- app_assoc, E2.
        replace (Z.to_nat nb) with (8 + Z.to_nat m)%nat by lia.
        pose proof (bits_of_app 8 (Z.to_nat m) hi lo) as X. rewrite Z2Nat.id in X by lia.
        rewrite <- X by lia. rewrite <- Ehl. reflexivity.
    + exists [], pend, nb. cbn. repeat split; auto; try lia; try constructor.
Qed.

Lemma bits_of_ones k : bits_of k (2 ^ Z.of_nat k - 1) = repeat true k.
Proof.
  induction k as [|k IH]; [reflexivity|].
  replace (2 ^ Z.of_nat (S k) - 1) with (1 * 2 ^ Z.of_nat k + (2 ^ Z.of_nat k - 1))
    by (replace (Z.of_nat (S k)) with (1 + Z.of_nat k) by lia; rewrite Z.pow_add_r by lia; lia).
  change (S k) with (1 + k)%nat. rewrite bits_of_app by (pose proof (Z.pow_pos_nonneg 2 (Z.of_nat k)); lia).
  rewrite IH. reflexivity.
Qed.

Lemma huff_encode_bits src : bytes src ->
  bytes (huff_encode src) /\ exists pad, bits_of_bytes (huff_encode src) = flat_map code src ++ pad /\
    (length pad <= 7)%nat /\ Forall (fun b => b = true) pad.
Proof.
  intros Hb. unfold huff_encode.
  destruct (huff_enc_loop_spec src 0 0 Hb ltac:(lia) ltac:(cbn; lia)) as (o1 & p1 & n1 & E1 & B1 & N1 & P1 & S1).
  rewrite Z.mul_0_l in E1. rewrite E1.
  destruct (huff_enc_flush_spec 8 p1 n1 ltac:(lia) ltac:(lia) P1) as (o2 & p2 & n2 & E2 & B2 & N2 & P2 & S2).
  rewrite E2. cbn [Z.to_nat bits_of app] in S1.
  destruct (Z.eqb_spec n2 0) as [->|Hne].
  - rewrite app_nil_r. split; [apply bytes_app; auto|]. exists []. rewrite app_nil_r, bits_of_bytes_app.
    cbn in S2. rewrite app_nil_r in S2. rewrite S2, S1. repeat split; auto. cbn; lia.
  - assert (Hc : Z.shiftr (p2 * 2 ^ (64 - n2)) 56 mod 256 = p2 * 2 ^ (8 - n2)).
    { rewrite Z.shiftr_div_pow2 by lia.
      replace (64 - n2) with (8 - n2 + 56) by lia. rewrite Z.pow_add_r, Z.mul_assoc by lia.
      rewrite Z.div_mul by lia. apply Z.mod_small.
      change 256 with (2 ^ 8). rewrite (pow_split 8 n2 (8 - n2)) by lia.
      apply mul_bound; [auto|apply pow_pos; lia]. }
    assert (Hones : 0 <= 2 ^ (8 - n2) - 1 < 2 ^ (8 - n2)) by (pose proof (Z.pow_pos_nonneg 2 (8 - n2)); lia).
    assert (Hlast : Z.lor (Z.shiftr (p2 * 2 ^ (64 - n2)) 56 mod 256) (2 ^ (8 - n2) - 1) mod 256
                    = p2 * 2 ^ (8 - n2) + (2 ^ (8 - n2) - 1)).
    { rewrite Hc, lor_add_low by lia. apply Z.mod_small.
      change 256 with (2 ^ 8). rewrite (pow_split 8 n2 (8 - n2)) by lia.
      apply mul_bound'; auto. apply pow_pos; lia. }
    rewrite Hlast. split.
    + repeat (apply bytes_app; split); auto. apply bytes_cons; split; [|constructor].
      unfold is_byte.
      change 256 with (2 ^ 8). rewrite (pow_split 8 n2 (8 - n2)) by lia.
      apply mul_bound'; auto. apply pow_pos; lia.
    + exists (repeat true (Z.to_nat (8 - n2))). rewrite !bits_of_bytes_app. split; [|split].
      * cbn [bits_of_bytes flat_map]. rewrite app_nil_r.
        pose proof (bits_of_app (Z.to_nat n2) (Z.to_nat (8 - n2)) p2 (2 ^ (8 - n2) - 1)) as X.
        rewrite Z2Nat.id in X by lia. specialize (X Hones).
        replace (Z.to_nat n2 + Z.to_nat (8 - n2))%nat with 8%nat in X by lia. rewrite X.
        pose proof (bits_of_ones (Z.to_nat (8 - n2))) as Y. rewrite Z2Nat.id in Y by lia. rewrite Y.
        rewrite <- S1, <- S2. rewrite <- !app_assoc. reflexivity.
      * rewrite repeat_length; lia.
      * apply Forall_forall. intros x Hx. apply repeat_spec in Hx; auto.
Qed.

Lemma huff_encode_represents src : bytes src -> huff_represents (huff_encode src) src.
Proof.
  intros Hb. destruct (huff_encode_bits src Hb) as [_ (pad & E & P1 & P2)].
  split; [auto|]. exists pad. rewrite code_bytes_rfc by auto. auto.
Qed.

Lemma flat_bits_len l : bytes l ->
  Z.of_nat (length (flat_map code l)) = fold_left (fun n b => n + sym_nbits b) l 0.
Proof.
  assert (G : forall l a, bytes l -> a + Z.of_nat (length (flat_map code l)) = fold_left (fun n b => n + sym_nbits b) l a).
  { induction l0 as [|b t IH]; intros a H; cbn [flat_map fold_left]; [cbn; lia|].
    apply bytes_cons in H as [Hb Ht]. rewrite <- IH by auto. rewrite app_length.
    destruct (sym_tbl_ok b Hb) as (L & _ & _ & C). rewrite <- C, bits_of_length. lia. }
  intros H. rewrite <- G by auto. lia.
Qed.

Lemma bits_of_bytes_length l : length (bits_of_bytes l) = (8 * length l)%nat.
Proof. unfold bits_of_bytes. induction l; cbn [flat_map length]; [auto|]. rewrite app_length, bits_of_length, IHl. lia. Qed.

Lemma huff_encode_count_ok src : bytes src -> zlen (huff_encode src) = huff_encode_count src.
Proof.
  intros Hb. destruct (huff_encode_bits src Hb) as [_ (pad & E & P1 & _)].
  apply (f_equal (@length bool)) in E. rewrite app_length, bits_of_bytes_length in E.
  unfold huff_encode_count. rewrite <- flat_bits_len by auto. unfold zlen. lia.
Qed.

Lemma huff_roundtrip src : bytes src ->
  exists fs, huff_decode huff_init (huff_encode src) true = Ok (fs, src) /\ fs <> 256.
Proof.
  intros Hb. destruct (huff_encode_bits src Hb) as [Hb' _].
  destruct (proj2 (huff_decode_iff (huff_encode src) src Hb') (huff_encode_represents src Hb)) as (fs & E).
  exists fs; split; [auto|]. intros ->. unfold huff_decode in E.
  destruct (huff_loop huff_init (huff_encode src)) as [[f o]|]; [|discriminate].
  destruct (Z.land f HUFF_ACCEPTED =? 0) eqn:A; [discriminate|]. cbn in E. injection E as -> _. discriminate.
Qed.

(* ------------- strings read in pieces ------------- *)
Lemma hstate_fail_no_rep fs bits out more dst src :
  hstate fs bits out -> Z.land fs 511 = 256 -> bits_of_bytes src = bits ++ more -> ~ huff_represents src dst.
Proof.
  intros H E Hs (Hd & pad & Ep & P1 & P2). unfold hstate in H.
  rewrite (proj2 (Z.eqb_eq _ _) E) in H. destruct H as [_ H].
  assert (W : walk [] (bits_of_bytes src) = (dst, pad)).
  { rewrite Ep, code_bytes_rfc by auto. rewrite walk_app, walk_codes by (apply bytes_syms; auto).
    rewrite walk_pad by auto. rewrite app_nil_r. reflexivity. }
  rewrite Hs, walk_app in W. destruct (walk [] bits) as [o1 q]. destruct (walk q more) as [o2 r].
  injection W as <- <-. cbn [fst] in H. apply bytes_app in Hd as [Hd _].
  apply Exists_exists in H as (x & H1 & ->).
  pose proof (proj1 (Forall_forall _ _) Hd _ H1) as Q. unfold is_byte in Q. lia.
Qed.

Lemma hstate_accept fs src out : hstate fs (bits_of_bytes src) out ->
  Z.land fs HUFF_ACCEPTED =? 0 = false -> huff_represents src out.
Proof.
  intros S A. unfold hstate in S.
  destruct (Z.eqb_spec (Z.land fs 511) 256) as [E|E].
  { destruct S as [-> _]. discriminate. }
  destruct S as (R & W & F & ACC). rewrite A in ACC. cbn [negb] in ACC. symmetry in ACC.
  apply accepting_spec in ACC as [P1 P2]. split; [auto|].
  exists (path_of (Z.land fs 511)). apply walk_sound in W as [W _]. rewrite code_bytes_rfc by auto. auto.
Qed.
Lemma hstate_noaccept fs src out dst : hstate fs (bits_of_bytes src) out ->
  Z.land fs HUFF_ACCEPTED =? 0 = true -> ~ huff_represents src dst.
Proof.
  intros S A R.
  destruct (Z.eqb_spec (Z.land fs 511) 256) as [E|E].
  { apply (hstate_fail_no_rep fs _ out [] dst src S E); [rewrite app_nil_r; auto|auto]. }
  destruct R as (Hd & pad & Ep & P1 & P2).
  assert (W : walk [] (bits_of_bytes src) = (dst, pad)).
  { rewrite Ep, code_bytes_rfc by auto. rewrite walk_app, walk_codes by (apply bytes_syms; auto).
    rewrite walk_pad by auto. rewrite app_nil_r. reflexivity. }
  unfold hstate in S. rewrite (proj2 (Z.eqb_neq _ _) E), W in S.
  destruct S as (_ & S & _ & ACC). injection S as <- Eq. rewrite A, <- Eq in ACC.
  rewrite (proj2 (accepting_spec pad)) in ACC by auto. discriminate.
Qed.

Lemma huff_fail_land fs bits out : hstate fs bits out -> huff_failure fs = (Z.land fs 511 =? 256).
Proof.
  unfold hstate, huff_failure. intros H.
  destruct (Z.eqb_spec (Z.land fs 511) 256) as [E|E].
  - destruct H as [-> _]. reflexivity.
  - apply Z.eqb_neq. intros ->. apply E. reflexivity.
Qed.

Lemma feed_huffman_spec ps : forall n fs got acc,
  bytes (concat ps) -> ps <> [] -> 0 <= n <= zlen (concat ps) ->
  hstate fs (bits_of_bytes got) acc -> bytes got ->
  match feed_huffman_string n fs acc ps with
  | Ok (Some (dst, rest)) =>
      huff_represents (got ++ firstn (Z.to_nat n) (concat ps)) dst /\
      rest = skipn (Z.to_nat n) (concat ps) /\ zlen dst <= zlen acc + 2 * n
  | Err e => e = ERR_QPACK_FATAL /\ forall dst, ~ huff_represents (got ++ firstn (Z.to_nat n) (concat ps)) dst
  | _ => False
  end.
Proof.
  induction ps as [|p ps IH]; intros n fs got acc Hb Hne Hn Hs Hg; [congruence|].
  cbn [feed_huffman_string concat] in *. apply bytes_app in Hb as [Hp Hps].
  unfold read_huffman_string. rewrite zlen_app in Hn.
  destruct (Z.geb_spec (zlen p) n) as [Hge|Hlt].
  - assert (En : firstn (Z.to_nat n) (p ++ concat ps) = firstn (Z.to_nat n) p).
    { rewrite firstn_app. replace (Z.to_nat n - length p)%nat with 0%nat by (unfold zlen in *; lia).
      cbn [firstn]. apply app_nil_r. }
    assert (Es : skipn (Z.to_nat n) (p ++ concat ps) = skipn (Z.to_nat n) p ++ concat ps).
    { rewrite skipn_app. replace (Z.to_nat n - length p)%nat with 0%nat by (unfold zlen in *; lia). reflexivity. }
    rewrite En, Es. unfold huff_decode.
    destruct (huff_loop_state (firstn (Z.to_nat n) p) fs (bits_of_bytes got) acc (bytes_firstn _ _ Hp) Hs)
      as (fs' & o & -> & S & L).
    rewrite <- bits_of_bytes_app in S. cbn [andb].
    assert (Lf : zlen (firstn (Z.to_nat n) p) <= n) by (unfold zlen; rewrite firstn_length; lia).
    destruct (Z.land fs' HUFF_ACCEPTED =? 0) eqn:A.
    + split; [reflexivity|]. intros dst. eapply hstate_noaccept; eauto.
    + rewrite (huff_fail_land _ _ _ S).
      destruct (Z.eqb_spec (Z.land fs' 511) 256) as [E|E].
      { unfold hstate in S. rewrite (proj2 (Z.eqb_eq _ _) E) in S. destruct S as [-> _]. discriminate. }
      rewrite Z.sub_diag. cbn [Z.eqb]. split; [|split; [reflexivity|rewrite zlen_app; lia]].
      eapply hstate_accept; eauto.
  - unfold huff_decode.
    rewrite (firstn_all2 p) by (unfold zlen in *; lia).
    destruct (huff_loop_state p fs (bits_of_bytes got) acc Hp Hs) as (fs' & o & -> & S & L).
    rewrite <- bits_of_bytes_app in S. cbn [andb].
    assert (En : firstn (Z.to_nat n) (p ++ concat ps) = p ++ firstn (Z.to_nat (n - zlen p)) (concat ps)).
    { rewrite firstn_app, (firstn_all2 p) by (unfold zlen in *; lia). do 2 f_equal. unfold zlen in *; lia. }
    assert (Es : skipn (Z.to_nat n) (p ++ concat ps) = skipn (Z.to_nat (n - zlen p)) (concat ps)).
    { rewrite skipn_app, (skipn_all2 p) by (unfold zlen in *; lia). cbn [app]. f_equal. unfold zlen in *; lia. }
    rewrite En, Es, (huff_fail_land _ _ _ S), app_assoc.
    destruct (Z.eqb_spec (Z.land fs' 511) 256) as [E|E].
    + split; [reflexivity|]. intros dst. eapply hstate_fail_no_rep; [exact S|exact E|].
      rewrite bits_of_bytes_app. reflexivity.
    + destruct (Z.eqb_spec (n - zlen p) 0); [lia|].
      assert (Hne' : ps <> []).
      { intros ->. cbn [concat] in Hn. rewrite zlen_nil in Hn. lia. }
      pose proof (zlen_nonneg _ p).
      specialize (IH (n - zlen p) fs' (got ++ p) (acc ++ o) Hps Hne' ltac:(lia) S ltac:(apply bytes_app; auto)).
      destruct (feed_huffman_string (n - zlen p) fs' (acc ++ o) ps) as [[[dst rest]|]|e|]; auto.
      destruct IH as (I1 & I2 & I3). split; [auto|]. split; [auto|]. rewrite zlen_app in I3. lia.
Qed.

Lemma feed_huffman_full ps n :
  bytes (concat ps) -> ps <> [] -> 0 <= n <= zlen (concat ps) ->
  match feed_huffman_string n huff_init [] ps with
  | Ok (Some (dst, rest)) =>
      huff_represents (firstn (Z.to_nat n) (concat ps)) dst /\
      rest = skipn (Z.to_nat n) (concat ps) /\ zlen dst <= 2 * n
  | Err e => e = ERR_QPACK_FATAL /\ forall dst, ~ huff_represents (firstn (Z.to_nat n) (concat ps)) dst
  | _ => False
  end.
Proof.
  intros H1 H2 H3. exact (feed_huffman_spec ps n huff_init [] [] H1 H2 H3 hstate_init (Forall_nil _)).
Qed.

Lemma huff_loop_bound src : bytes src ->
  exists fs out, huff_loop huff_init src = Some (fs, out) /\ zlen out <= 2 * zlen src.
Proof.
  intros Hb. destruct (huff_loop_state src huff_init [] [] Hb hstate_init) as (fs & o & E & _ & L). eauto.
Qed.
