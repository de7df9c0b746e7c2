(* The control stream inside a connection: what is needed of its state and its events *)
From Verif Require Import Base BaseLemmas ConvModel ConvProofs RdVarint HttpModel Chunk Chunk2 ControlModel ControlSpec ControlProofs ControlTrace SchedModel SchedFair.
Open Scope Z_scope.

Definition id_range (id : Z) : Prop := 0 <= id <= max_varint.
Definition good_cev (server : bool) (e : cev) : Prop :=
  match e with CvPriority id p => server = true /\ client_bidi id = true /\ pri_valid p /\ id_range id | _ => True end.
Definition elem_inv (s : cst) : Prop := c_rd s = CPrio -> id_range (c_id s).
Definition ctl_inv (server : bool) (s : cst) : Prop := r_inv s /\ elem_inv s /\ exists st, clink server s st.
Lemma ctl_init server : ctl_inv server cst_init.
Proof.
  split; [|split; [intros [=]|]].
  - repeat split; cbn; auto using rv_inv_reset; unfold max_varint; lia.
  - exists (Fresh, max_varint + 1). split; reflexivity.
Qed.
Lemma settings_good sv sv' r id v r' evs : settings_entry sv r id v = Ok (r', evs) -> Forall (good_cev sv') evs.
Proof. unfold settings_entry. repeat match goal with |- context [if ?c then _ else _] => destruct c end; intros [= _ <-]; repeat constructor. Qed.
Lemma step_elem E s p : r_inv s -> elem_inv s -> bytes p ->
  match c_step false E s p with SGo s' _ _ ev | SMore s' ev => elem_inv s' /\ Forall (good_cev (ce_server E)) ev | _ => True end.
Proof.
  intros (R1 & R2 & R3 & R4) I B. unfold c_step.
  assert (forall t, c_rd t <> CPrio -> elem_inv t) as N by (unfold elem_inv; intros; congruence).
  destruct (c_rd s) eqn:Rd.
  - destruct (rd_varint _ _ _); cbn; auto; split; auto; apply N; discriminate.
  - destruct (rd_varint _ _ _) as [|v rest| |]; cbn; auto; [split; auto; apply N; discriminate|]. unfold c_frame_start, c_fail. cbv zeta.
    repeat match goal with |- context [if ?c then _ else _] => destruct c; cbn [app]; try exact Logic.I; try (split; [apply N; discriminate|repeat constructor]) end.
  - destruct (fr_varint _ _ _); cbn; auto; [split; auto; apply N; discriminate|]. destruct (_ =? 0); cbn; auto. split; auto; apply N; discriminate.
  - destruct (fr_varint _ _ _); cbn; auto; [split; auto; apply N; discriminate|]. destruct (settings_entry _ _ _ _) as [[r evs]| |] eqn:ST; cbn; auto.
    apply (settings_good _ (ce_server E)) in ST. destruct (_ =? 0); (split; [apply N; discriminate|auto]). apply Forall_app; split; auto; repeat constructor.
  - destruct (fr_varint _ _ _); cbn; auto; [split; auto; apply N; discriminate|]. unfold c_fail. repeat match goal with |- context [if ?c then _ else _] => destruct c; try exact Logic.I end.
    split; [apply N; discriminate|repeat constructor].
  - destruct (fr_varint _ _ _); cbn; auto; [split; auto; apply N; discriminate|]. unfold c_fail. repeat match goal with |- context [if ?c then _ else _] => destruct c; try exact Logic.I end.
    split; [apply N; discriminate|repeat constructor].
  - pose proof (fr_pos (c_rv s) (c_left s) p R1 R4 B) as V. unfold fv_ok in V. destruct (fr_varint (c_rv s) (c_left s) p) as [rv' l'|v l' rest| |]; cbn; auto; [split; auto; apply N; discriminate|].
    destruct V as (V1 & V2 & V3 & _). unfold c_fail. destruct (l' =? 0).
    + destruct (ce_server E) eqn:SV; cbn [negb]; [|exact Logic.I]. destruct (prio_allowed E v) eqn:PA; [|exact Logic.I]. apply andb_true_iff in PA as [PA _].
      split; [apply N; discriminate|]. repeat constructor; cbn; auto; unfold DEFAULT_URGENCY; try lia; tauto.
    + destruct (zlen rest =? 0); [exact Logic.I|]. split; [intros _; cbn; exact V1|repeat constructor].
  - specialize (I Rd). unfold c_prio, c_fail. cbv zeta.
    assert (forall value rest, match match parse_priority (ce_sf E) {| p_urg := DEFAULT_URGENCY; p_inc := 0 |} value with
      | Some pr => if negb (ce_server E) then SAbort else if prio_allowed E (c_id s) then SGo (c_reset (c_with_buf s [])) rest false [CvPriority (c_id s) pr] else SErr ERR_H3_ID_ERROR cst_init []
      | None => SErr ERR_H3_GENERAL_PROTOCOL_ERROR cst_init [] end with SGo s' _ _ ev | SMore s' ev => elem_inv s' /\ Forall (good_cev (ce_server E)) ev | _ => True end) as D.
    { intros value rest. destruct (parse_priority _ _ value) as [pr|] eqn:PP; [|exact Logic.I]. destruct (ce_server E) eqn:SV; cbn [negb]; [|exact Logic.I].
      destruct (prio_allowed E (c_id s)) eqn:PA; [|exact Logic.I]. apply andb_true_iff in PA as [PA _].
      apply parse_pri_range in PP; [|cbn; unfold DEFAULT_URGENCY; lia|cbn; auto].
      split; [apply N; discriminate|]. constructor; [|constructor]. cbn. unfold pri_valid. split; auto. split; auto. split; [|exact I]. split; [lia|tauto]. }
    repeat match goal with |- context [if (?c : bool) then _ else _] => match c with context [Z.min] => destruct c; try apply D; try exact Logic.I end end;
      (split; [first [apply N; discriminate|intros _; exact I]|repeat constructor]).
  - unfold c_ign. destruct (_ =? 0); (split; [apply N; discriminate|repeat constructor]).
Qed.
Lemma run_ctl E f : forall s p busy, ctl_inv (ce_server E) s -> bytes p ->
  match run_fuel (c_step false E) f s p busy with ROk s' ev => ctl_inv (ce_server E) s' /\ Forall (good_cev (ce_server E)) ev | RStop _ _ _ => False | _ => True end.
Proof.
  induction f as [|f IH]; intros s p busy I B; [destruct p, busy; cbn; auto|].
  assert (D : (p = [] /\ busy = false) \/ run_fuel (c_step false E) (S f) s p busy = turn (c_step false E) s p (run_fuel (c_step false E) f)).
  { destruct p; [destruct busy|]; auto. }
  destruct D as [[-> ->]|D]; [cbn; auto|]. rewrite D. unfold turn.
  destruct I as (R & EI & st & L). pose proof (step_trace E s p st R B L) as T. pose proof (step_elem E s p R EI B) as T2.
  destruct (c_step false E s p) as [s1 r1 b1 e1|s1 e1|s1 r1 e1|e s1 e1|]; cbn [strace] in T; auto.
  - destruct T as (B1 & I1 & st1 & C1 & L1). destruct T2 as [T2 T3].
    specialize (IH s1 r1 b1 (conj I1 (conj T2 (ex_intro _ st1 L1))) B1).
    destruct (run_fuel (c_step false E) f s1 r1 b1) as [s2 e2|s2 r2 e2|e s2 e2|]; cbn [rev_]; auto.
    destruct IH as (I2 & F2). split; auto. apply Forall_app; auto.
  - destruct T as (I1 & st1 & C1 & L1). destruct T2 as [T2 T3]. split; auto. split; auto. split; auto. eauto.
Qed.
Lemma read_control_fact E s src : ctl_inv (ce_server E) s -> bytes src ->
  match read_control false E s src with ROk s' ev => ctl_inv (ce_server E) s' /\ Forall (good_cev (ce_server E)) ev | RStop _ _ _ => False | _ => True end.
Proof. intros. unfold read_control, run. apply run_ctl; auto. Qed.
