(* Field sections read while the table changes: the reader against RFC 9204 with the table
   replaced by the list of all insertions. *)
From Verif Require Import Base BaseLemmas QpackIntModel QpackIntSpec QpackIntProofs HuffModel HuffSpec HuffProofs Tables QpackTabModel QpackTabSpec QpackTabProofs
  QpackDynSpec QpackDynProofs Chunk QpackDecModel QpackReadProofs QpackDecProofs QpackSecProofs QpackWireProofs QpackHistModel QpackHistProofs QpackCutProofs
  RfcQpackSpec RfcPrim RfcEnc RfcSec RfcMain Props_QpackTab RfcStreamSpec.
Open Scope Z_scope.

(* ---- a table with every insertion ---- *)
Fixpoint itab (l : list field) (next : Z) : list QpackTabModel.entry :=
  match l with
  | [] => []
  | f :: l' => mk_ent (fst f) (snd f) (lookup_token (fst f)) (tsize (itab l' (next - 1))) (next - 1) 0 :: itab l' (next - 1)
  end.
Definition fbytes (f : field) : Prop := bytes (fst f) /\ bytes (snd f).
Lemma itab_len l : forall n, length (itab l n) = length l.
Proof. induction l as [|f l IH]; intros n; cbn; auto. Qed.
Lemma itab_at l : forall n, n = zlen l -> Forall fbytes l -> tab_at n (tsize (itab l n)) (itab l n).
Proof.
  induction l as [|f l IH]; intros n E F; cbn [itab tab_at]; [rewrite zlen_nil in E; lia|]. inversion F as [|? ? (F1 & F2) F3]; subst.
  rewrite zlen_cons in *. rewrite tsize_cons. cbn [e_abs e_sum e_token e_name e_value].
  split; [lia|]. split; [lia|]. split; [reflexivity|]. split; [auto|]. split; [auto|].
  match goal with |- tab_at _ ?s _ => replace s with (tsize (itab l (1 + zlen l - 1))) by lia end. apply IH; auto. lia.
Qed.
Lemma itab_nth l : forall n i f, nth_error l i = Some f -> exists e, nth_error (itab l n) i = Some e /\ kv e = f /\ e_token e = lookup_token (e_name e).
Proof.
  induction l as [|g l IH]; intros n i f E; destruct i; try discriminate; cbn [itab nth_error] in *.
  - injection E as ->. eexists. split; [reflexivity|]. split; [destruct f; reflexivity|reflexivity].
  - eapply IH; eauto.
Qed.
Definition ideal (H : list field) : ctx :=
  let l := itab (rev H) (zlen H) in mk_ctx l (tsize l) (tsize l) (tsize l) (tsize l) 0 (zlen H) false.
Lemma tsize_nonneg l : 0 <= tsize l.
Proof. induction l as [|e l IH]; [rewrite tsize_nil; lia|]. rewrite tsize_cons. pose proof (ent_space_pos e). lia. Qed.
Lemma zlen_rev A (l : list A) : zlen (rev l) = zlen l. Proof. unfold zlen. rewrite rev_length. reflexivity. Qed.
Lemma ideal_ok H : Forall fbytes H -> ctx_ok (ideal H).
Proof.
  intros F. unfold ideal. split; [constructor|]; cbn [dtable_size dtable next_absidx dtable_sum max_cap hard_max].
  - reflexivity.
  - apply itab_at; [symmetry; apply zlen_rev|apply Forall_rev; auto].
  - pose proof (tsize_nonneg (itab (rev H) (zlen H))). lia.
  - lia.
Qed.
Lemma numbered_lt H i f : numbered H i = Some f -> 0 <= i < zlen H.
Proof. unfold numbered. destruct (Z.ltb_spec i 0); [discriminate|]. intros E. assert (N : nth_error H (Z.to_nat i) <> None) by congruence. apply nth_error_Some in N. unfold zlen. lia. Qed.
Lemma numbered_some H i : 0 <= i < zlen H -> exists f, numbered H i = Some f.
Proof.
  intros R. unfold numbered. rewrite (proj2 (Z.ltb_ge i 0)) by lia. destruct (nth_error H (Z.to_nat i)) eqn:E; [eauto|].
  apply nth_error_None in E. unfold zlen in R. lia.
Qed.
Lemma numbered_rev H i : 0 <= i < zlen H -> numbered H i = nth_error (rev H) (Z.to_nat (zlen H - i - 1)).
Proof.
  intros R. unfold numbered. rewrite (proj2 (Z.ltb_ge i 0)) by lia. unfold zlen in *.
  destruct (nth_error H (Z.to_nat i)) as [f|] eqn:E; [|apply nth_error_None in E; lia].
  symmetry. rewrite (nth_error_nth' (rev H) f) by (rewrite rev_length; lia). f_equal.
  rewrite rev_nth by lia. apply nth_error_nth. replace (length H - S (Z.to_nat (Z.of_nat (length H) - i - 1)))%nat with (Z.to_nat i) by lia. exact E.
Qed.
Lemma numbered_app H X i f : numbered H i = Some f -> numbered (H ++ X) i = Some f.
Proof. intros E. pose proof (numbered_lt _ _ _ E) as L. unfold numbered in *. rewrite (proj2 (Z.ltb_ge i 0)) in * by lia. rewrite nth_error_app1 by (unfold zlen in L; lia). exact E. Qed.
Lemma ideal_get H i f : numbered H i = Some f -> exists e, dtable_get (ideal H) i = Some e /\ kv e = f /\ e_token e = lookup_token (e_name e).
Proof.
  intros E. pose proof (numbered_lt _ _ _ E) as L. rewrite numbered_rev in E by auto. destruct (itab_nth _ (zlen H) _ _ E) as (e & E2 & K & T).
  exists e. split; [|auto]. unfold dtable_get. unfold ideal. cbn [next_absidx dtable].
  rewrite (proj2 (Z.gtb_lt _ _)) by lia. cbn [andb]. rewrite (proj2 (Z.ltb_lt _ _)); [exact E2|].
  unfold zlen in *. rewrite itab_len, rev_length. lia.
Qed.
Lemma ideal_smatch H : Forall fbytes H -> smatch (ideal H) (numbered H).
Proof.
  intros F. constructor; [apply ideal_ok; auto|]. intros i Hi. change (next_absidx (ideal H)) with (zlen H) in *.
  destruct (numbered_some H i Hi) as (f & E). rewrite E. destruct (ideal_get _ _ _ E) as (e & G & K & T). exists e.
  split; [auto|]. split; [auto|]. split; [auto|]. unfold ideal. cbn [dtable]. unfold zlen in *. rewrite itab_len, rev_length. lia.
Qed.

(* ---- a real table whose entries are among [H] ---- *)
Record below (c : ctx) (H : list field) : Prop := {
  be_ok : ctx_ok c;
  be_next : next_absidx c <= zlen H;
  be_get : forall i e, 0 <= i -> dtable_get c i = Some e -> numbered H i = Some (kv e) /\ e_token e = lookup_token (e_name e) }.
Lemma below_ideal H X : Forall fbytes H -> below (ideal H) (H ++ X).
Proof.
  intros F. constructor; [apply ideal_ok; auto| |].
  - change (next_absidx (ideal H)) with (zlen H). rewrite zlen_app. pose proof (zlen_nonneg _ X). lia.
  - intros i e Hi G. assert (L : 0 <= i < zlen H).
    { split; [auto|]. unfold dtable_get in G. change (next_absidx (ideal H)) with (zlen H) in G. destruct (Z.gtb_spec (zlen H) i); [lia|discriminate]. }
    destruct (numbered_some H i L) as (f & E). destruct (ideal_get _ _ _ E) as (e' & G' & K & T). rewrite G in G'. injection G' as <-.
    split; [apply numbered_app; congruence|auto].
Qed.
Lemma below_app c H X : below c H -> below c (H ++ X).
Proof.
  intros [A B C]. constructor; auto; [rewrite zlen_app; pose proof (zlen_nonneg _ X); lia|].
  intros i e Hi G. destruct (C i e Hi G) as (D & E). split; [apply numbered_app; auto|auto].
Qed.
Lemma tmatch_below max c t : tmatch max c t -> below c (t_all t).
Proof.
  intros M. constructor; [exact (tm_ok _ _ _ M)|rewrite (tm_next _ _ _ M); lia|].
  intros i e Hi G. assert (L : i < next_absidx c).
  { unfold dtable_get in G. destruct (Z.gtb_spec (next_absidx c) i); [lia|discriminate]. }
  pose proof (tm_relative _ _ _ (next_absidx c - i - 1) M ltac:(lia)) as R.
  replace (next_absidx c - (next_absidx c - i - 1) - 1) with i in R by lia. rewrite G in R.
  destruct (relative t (next_absidx c - i - 1)) as [f|] eqn:E.
  2:{ exfalso. unfold dtable_get in G. destruct (_ && _) eqn:B; [|discriminate]. apply andb_prop in B. destruct B as (_ & B). apply Z.ltb_lt in B. lia. }
  destruct R as (e' & [= <-] & K & T & _). split; [|auto].
  unfold relative in E. rewrite (proj2 (Z.ltb_ge _ 0)) in E by lia.
  rewrite numbered_rev by (rewrite <- (tm_next _ _ _ M); lia). rewrite <- (tm_next _ _ _ M). destruct (tm_old _ _ _ M) as (old & O). rewrite O.
  rewrite nth_error_app1; [rewrite K; exact E|]. apply nth_error_Some. rewrite E. discriminate.
Qed.

(* ---- the steps of the reader after the prefix ---- *)
Definition line_state (s : sctx) : Prop :=
  match s_state s with RsRicnt | RsDbaseSign | RsDbase | RsBlocked => False | _ => True end.
Section Below.
Variables (c : ctx) (H : list field).
Hypothesis B : below c H.
Let cI := ideal H.
Lemma get_I i e : 0 <= i -> dtable_get c i = Some e -> exists e', dtable_get cI i = Some e' /\ e_name e' = e_name e /\ e_value e' = e_value e /\ e_token e' = e_token e.
Proof.
  intros Hi G. destruct (be_get _ _ B i e Hi G) as (N & T). destruct (ideal_get _ _ _ N) as (e' & G' & K & T').
  exists e'. split; [exact G'|]. assert (E1 : e_name e' = e_name e) by (apply (f_equal fst) in K; exact K).
  split; [exact E1|]. split; [apply (f_equal snd) in K; exact K|]. congruence.
Qed.
Lemma validate_get r : r_dynamic r = true -> validate_index c r = true -> 0 <= r_absidx r -> exists e, dtable_get c (r_absidx r) = Some e.
Proof.
  intros D V P. unfold validate_index in V. rewrite D in V. apply andb_prop in V. destruct V as (V1 & V2). apply Z.ltb_lt in V1. apply Z.ltb_lt in V2.
  unfold dtable_get. rewrite (proj2 (Z.gtb_lt _ _)) by lia. rewrite (proj2 (Z.ltb_lt _ _)) by lia. cbn [andb].
  destruct (nth_error (dtable c) (Z.to_nat (next_absidx c - r_absidx r - 1))) eqn:E; [eauto|]. apply nth_error_None in E. unfold zlen in V2. lia.
Qed.
Lemma validate_I r : 0 <= r_absidx r -> validate_index c r = true -> validate_index cI r = true.
Proof.
  intros P V. destruct (r_dynamic r) eqn:D.
  - destruct (validate_get r D V P) as (e & G). destruct (get_I _ _ P G) as (e' & G' & _).
    unfold validate_index. rewrite D. unfold dtable_get in G'. destruct (_ && _) eqn:X; [|discriminate]. apply andb_prop in X. destruct X as (X1 & X2).
    apply Z.gtb_lt in X1. rewrite X2. rewrite (proj2 (Z.ltb_lt _ _)) by lia. reflexivity.
  - unfold validate_index in *. rewrite D in *. exact V.
Qed.
Lemma brel_I s r r' : 0 <= r_left r -> brel2abs c s r = Ok r' -> brel2abs cI s r = Ok r'.
Proof.
  intros P. unfold brel2abs. destruct (r_dynamic r && (s_base s <? r_left r + 1)) eqn:E1; [discriminate|]. cbv zeta.
  set (r1 := rs_set_absidx r _). destruct (r_dynamic r && (r_absidx r1 >=? s_ricnt s)); [discriminate|].
  destruct (validate_index c r1) eqn:V; [|discriminate]. intros E. rewrite validate_I; auto.
  unfold r1. cbn [r_absidx rs_set_absidx]. destruct (r_dynamic r); [|auto]. cbn [andb] in E1. apply Z.ltb_ge in E1. lia.
Qed.
Lemma pbrel_I s r r' : 0 <= r_left r -> 0 <= s_base s -> pbrel2abs c s r = Ok r' -> pbrel2abs cI s r = Ok r'.
Proof.
  intros P Q. unfold pbrel2abs. destruct (negb (r_dynamic r)); [discriminate|]. cbv zeta.
  set (r1 := rs_set_absidx r _). destruct (r_absidx r1 >=? s_ricnt s); [discriminate|].
  destruct (validate_index c r1) eqn:V; [|discriminate]. intros E. rewrite validate_I; auto. unfold r1. cbn [r_absidx rs_set_absidx]. lia.
Qed.
Lemma emit_I r v : 0 <= r_absidx r -> emit_indexed c r = Ok v -> emit_indexed cI r = Ok v.
Proof.
  intros P. unfold emit_indexed. destruct (r_dynamic r); [|auto]. destruct (dtable_get c (r_absidx r)) as [e|] eqn:G; [|discriminate].
  intros [= <-]. destruct (get_I _ _ P G) as (e' & -> & -> & -> & ->). reflexivity.
Qed.
Lemma emit_name_I r v : 0 <= r_absidx r -> emit_indexed_name c r = Ok v -> emit_indexed_name cI r = Ok v.
Proof.
  intros P. unfold emit_indexed_name. destruct (r_dynamic r); [|auto]. destruct (validate_index c r) eqn:V; [|discriminate]. cbn [negb].
  destruct (dtable_get c (r_absidx r)) as [e|] eqn:G; [|discriminate]. intros [= <-]. rewrite validate_I by auto. cbn [negb].
  destruct (get_I _ _ P G) as (e' & -> & -> & _ & ->). reflexivity.
Qed.
Definition line_next (r : sres sctx qnv) : Prop :=
  match r with SGo s' _ _ _ | SMore s' _ => line_state s' | SStop _ _ _ => False | _ => True end.
Lemma step_I s p : rs_inv s -> bytes p -> line_state s -> (p <> [] \/ rs_ce s) ->
  match rs_step c s p with SErr _ _ ev => ev = [] | SAbort => True | r => rs_step cI s p = r /\ line_next r end.
Proof.
  intros (R1 & R2 & I) Bp L Run. unfold line_state in L. unfold rs_step. destruct (s_state s) eqn:St; try contradiction.
  - destruct p as [|b p]; [exact Logic.I|]. unfold rs_opcode_step.
    repeat match goal with |- context [if ?x then _ else _] => destruct x end; (exact Logic.I || (split; [reflexivity|exact Logic.I])).
  - unfold rs_read_index. destruct I as (I1 & I2).
    destruct p as [|b p]. { exfalso. unfold rs_ce in Run. rewrite St in Run. destruct Run as [X|[X|X]]; congruence. }
    pose proof (q_read_varint_inv (r_prefix (s_rs s)) (r_left (s_rs s)) (r_shift (s_rs s)) (b :: p)) as Q.
    assert (P : 1 <= r_prefix (s_rs s) <= 8) by (destruct (s_op s); intuition lia). specialize (Q P Bp ltac:(discriminate) I1).
    destruct (q_read_varint _ _ _ _) as [[[[l sh] rest] [|]]|e|]; [|split; [reflexivity|exact Logic.I]|reflexivity|exact Logic.I].
    destruct Q as (Q1 & _). set (r := rs_set_int (s_rs s) l sh). assert (RL : 0 <= r_left r) by (cbn; lia).
    destruct (s_op s) eqn:Op; try contradiction.
    + pose proof (brel_cases c s r RL R2) as BC. destruct (brel2abs c s r) as [r'|e|] eqn:E; [|reflexivity|exact Logic.I].
      rewrite (brel_I s r r' RL E). destruct BC as ((_ & X) & _). destruct (emit_indexed c r') as [v|e|] eqn:Em; [|reflexivity|exact Logic.I]. rewrite (emit_I r' v) by (auto; lia). split; [reflexivity|exact Logic.I].
    + pose proof (pbrel_cases c s r RL R2 (proj2 I2)) as BC. destruct (pbrel2abs c s r) as [r'|e|] eqn:E; [|reflexivity|exact Logic.I].
      rewrite (pbrel_I s r r' RL R2 E). destruct BC as ((_ & X) & _). destruct (emit_indexed c r') as [v|e|] eqn:Em; [|reflexivity|exact Logic.I]. rewrite (emit_I r' v) by (auto; lia). split; [reflexivity|exact Logic.I].
    + destruct (brel2abs c s r) as [r'|e|] eqn:E; [|reflexivity|exact Logic.I]. rewrite (brel_I s r r' RL E). split; [reflexivity|exact Logic.I].
    + destruct (pbrel2abs c s r) as [r'|e|] eqn:E; [|reflexivity|exact Logic.I]. rewrite (pbrel_I s r r' RL R2 E). split; [reflexivity|exact Logic.I].
  - destruct p as [|b p]; [exact Logic.I|]. unfold rs_read_namelen.
    destruct (q_read_varint _ _ _ _) as [[[[l sh] rest] [|]]|e|]; [|split; [reflexivity|exact Logic.I]|reflexivity|exact Logic.I].
    destruct (_ >? _); [reflexivity|]. split; [reflexivity|]. unfold line_next, line_state; cbn [s_state s_set]. match goal with |- context [if ?x then _ else _] => destruct x end; exact Logic.I.
  - unfold rs_read_namelen.
    destruct (q_read_varint _ _ _ _) as [[[[l sh] rest] [|]]|e|]; [|split; [reflexivity|exact Logic.I]|reflexivity|exact Logic.I].
    destruct (_ >? _); [reflexivity|]. split; [reflexivity|]. unfold line_next, line_state; cbn [s_state s_set]. match goal with |- context [if ?x then _ else _] => destruct x end; exact Logic.I.
  - unfold rs_read_name. destruct (read_str _ _ _ _ _ _) as [[[[lft fs] nm] rest]|e|]; [|reflexivity|exact Logic.I]. cbv zeta.
    destruct (negb _); (split; [reflexivity|]); unfold line_next, line_state, s_set; cbn; rewrite ?St; exact Logic.I.
  - unfold rs_read_name. destruct (read_str _ _ _ _ _ _) as [[[[lft fs] nm] rest]|e|]; [|reflexivity|exact Logic.I]. cbv zeta.
    destruct (negb _); (split; [reflexivity|]); unfold line_next, line_state, s_set; cbn; rewrite ?St; exact Logic.I.
  - destruct p as [|b p]; [exact Logic.I|]. unfold rs_read_valuelen.
    destruct (q_read_varint _ _ _ _) as [[[[l sh] rest] [|]]|e|]; [|split; [reflexivity|exact Logic.I]|reflexivity|exact Logic.I].
    destruct (_ >? _); [reflexivity|]. split; [reflexivity|]. unfold line_next, line_state; cbn [s_state s_set]. match goal with |- context [if ?x then _ else _] => destruct x end; exact Logic.I.
  - unfold rs_read_valuelen.
    destruct (q_read_varint _ _ _ _) as [[[[l sh] rest] [|]]|e|]; [|split; [reflexivity|exact Logic.I]|reflexivity|exact Logic.I].
    destruct (_ >? _); [reflexivity|]. split; [reflexivity|]. unfold line_next, line_state; cbn [s_state s_set]. match goal with |- context [if ?x then _ else _] => destruct x end; exact Logic.I.
  - destruct I as (_ & I). unfold sop_val in I. unfold rs_read_value. destruct (read_str _ _ _ _ _ _) as [[[[lft fs] nm] rest]|e|]; [|reflexivity|exact Logic.I]. cbv zeta.
    destruct (negb _). { split; [reflexivity|]. unfold line_next, line_state, s_set. cbn. rewrite ?St. exact Logic.I. }
    destruct (s_op s); try contradiction.
    + destruct (emit_indexed_name c _) as [v|e|] eqn:Em; [|reflexivity|exact Logic.I]. rewrite (emit_name_I _ v) by (auto; cbn; lia). split; [reflexivity|exact Logic.I].
    + destruct (emit_indexed_name c _) as [v|e|] eqn:Em; [|reflexivity|exact Logic.I]. rewrite (emit_name_I _ v) by (auto; cbn; lia). split; [reflexivity|exact Logic.I].
    + split; [reflexivity|exact Logic.I].
  - destruct I as (_ & I). unfold sop_val in I. unfold rs_read_value. destruct (read_str _ _ _ _ _ _) as [[[[lft fs] nm] rest]|e|]; [|reflexivity|exact Logic.I]. cbv zeta.
    destruct (negb _). { split; [reflexivity|]. unfold line_next, line_state, s_set. cbn. rewrite ?St. exact Logic.I. }
    destruct (s_op s); try contradiction.
    + destruct (emit_indexed_name c _) as [v|e|] eqn:Em; [|reflexivity|exact Logic.I]. rewrite (emit_name_I _ v) by (auto; cbn; lia). split; [reflexivity|exact Logic.I].
    + destruct (emit_indexed_name c _) as [v|e|] eqn:Em; [|reflexivity|exact Logic.I]. rewrite (emit_name_I _ v) by (auto; cbn; lia). split; [reflexivity|exact Logic.I].
    + split; [reflexivity|exact Logic.I].
Qed.
Definition emits (r : rres sctx qnv) : list qnv := match r with ROk _ q | RStop _ _ q | RErr _ _ q => q | RAbort => [] end.
Lemma run_I f : forall s p busy, rs_inv s -> bytes p -> line_state s -> (busy = true -> rs_ce s) ->
  match run_fuel (rs_step c) f s p busy with
  | ROk s' q => run_fuel (rs_step cI) f s p busy = ROk s' q /\ line_state s'
  | RStop _ _ _ => False
  | RErr _ _ q => run_fuel (rs_step cI) f s p busy = RAbort \/ exists q', emits (run_fuel (rs_step cI) f s p busy) = q ++ q'
  | RAbort => True
  end.
Proof.
  pose proof (be_ok _ _ B) as CO.
  induction f as [|f IH]; intros s p busy I Bp L Hb.
  - destruct p, busy; cbn; auto.
  - assert (T : runnable rs_ce s p ->
      match turn (rs_step c) s p (run_fuel (rs_step c) f) with
      | ROk s' q => turn (rs_step cI) s p (run_fuel (rs_step cI) f) = ROk s' q /\ line_state s'
      | RStop _ _ _ => False
      | RErr _ _ q => turn (rs_step cI) s p (run_fuel (rs_step cI) f) = RAbort \/ exists q', emits (turn (rs_step cI) s p (run_fuel (rs_step cI) f)) = q ++ q'
      | RAbort => True end).
    { intros R. unfold turn. pose proof (step_I s p I Bp L R) as S. pose proof (rs_step_sok c CO s p I Bp R) as OK. unfold rs_sok, step_ok in OK.
      destruct (rs_step c s p) as [s' rest b ev|s' ev|s' rest ev|e s' ev|]; auto.
      - destruct S as (-> & N). cbn [line_next] in N. destruct OK as (I' & B' & _ & Ce & _). specialize (IH s' rest b I' B' N Ce).
        destruct (run_fuel (rs_step c) f s' rest b); cbn [rev_]; auto.
        + destruct IH as (-> & L'). split; auto.
        + destruct IH as [-> |(q' & E)]; [left; reflexivity|]. destruct (run_fuel (rs_step cI) f s' rest b); cbn [rev_ emits] in *; [right; exists q'; rewrite ?E, ?app_assoc; auto..|left; reflexivity].
      - destruct S as (-> & N). auto.
      - destruct S as (_ & []).
      - subst ev. right. eexists. reflexivity. }
    destruct p, busy; cbn [run_fuel]; auto; apply T; try (left; discriminate); right; auto.
Qed.
End Below.
