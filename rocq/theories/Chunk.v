(* A generic incremental reader: the C pattern
     for (; p != end || busy;) { busy = 0; switch (state) { ... } }
   with a state that survives between calls.  Each parser of the library is an
   instance; the lemma proved here says when cutting the input cannot be observed. *)
From Verif Require Import Base BaseLemmas.

Section Chunk.
Context {St Ev : Type}.

(* result of one turn of the loop *)
Inductive sres : Type :=
| SGo (s : St) (rest : list Z) (busy : bool) (evs : list Ev)  (* break: next turn *)
| SMore (s : St) (evs : list Ev)             (* return: all input consumed, more needed *)
| SStop (s : St) (rest : list Z) (evs : list Ev)  (* return early with unread input *)
| SErr (e : Z) (s : St) (evs : list Ev)      (* return an error; final state s *)
| SAbort.

(* result of a call *)
Inductive rres : Type :=
| ROk (s : St) (evs : list Ev)
| RStop (s : St) (rest : list Z) (evs : list Ev)
| RErr (e : Z) (s : St) (evs : list Ev)
| RAbort.

Definition sev (ev : list Ev) (r : sres) : sres :=
  match r with
  | SGo s rest b e => SGo s rest b (ev ++ e)
  | SMore s e => SMore s (ev ++ e)
  | SStop s rest e => SStop s rest (ev ++ e)
  | SErr e s evs => SErr e s (ev ++ evs)
  | SAbort => SAbort
  end.
Definition rev_ (ev : list Ev) (r : rres) : rres :=
  match r with
  | ROk s e => ROk s (ev ++ e)
  | RStop s rest e => RStop s rest (ev ++ e)
  | RErr e s evs => RErr e s (ev ++ evs)
  | RAbort => RAbort
  end.

Variable step : St -> list Z -> sres.
Variable K : nat.
Variable rank : St -> nat.

Fixpoint run_fuel (fuel : nat) (s : St) (p : list Z) (busy : bool) : rres :=
  match p, busy with
  | [], false => ROk s []
  | _, _ =>
    match fuel with
    | O => RAbort
    | S f =>
      match step s p with
      | SGo s' rest b ev => rev_ ev (run_fuel f s' rest b)
      | SMore s' ev => ROk s' ev
      | SStop s' rest ev => RStop s' rest ev
      | SErr e s' ev => RErr e s' ev
      | SAbort => RAbort
      end
    end
  end.
Definition measure (s : St) (p : list Z) : nat := (K * length p + rank s)%nat.
Definition run (s : St) (p : list Z) (busy : bool) : rres := run_fuel (S (measure s p)) s p busy.

(* sequencing of calls *)
Definition seq_res (r : rres) (k : St -> rres) : rres :=
  match r with
  | ROk s ev => rev_ ev (k s)
  | r => r
  end.
Fixpoint feed (s : St) (ps : list (list Z)) : rres :=
  match ps with
  | [] => ROk s []
  | p :: ps' => seq_res (run s p false) (fun s' => feed s' ps')
  end.

Definition more_rest (r : rres) (b : list Z) : rres :=
  match r with
  | RStop s rest ev => RStop s (rest ++ b) ev
  | r => r
  end.

Variable inv : St -> Prop.
Variable ce : St -> Prop.  (* states that may be entered with empty input (busy) *)
Definition runnable (s : St) (a : list Z) : Prop := a <> [] \/ ce s.
(* what one turn must satisfy *)
Definition step_ok (s : St) (a : list Z) (r : sres) : Prop :=
  match r with
  | SGo s' rest busy ev =>
      inv s' /\ bytes rest /\ (measure s' rest < measure s a)%nat /\ (busy = true -> ce s') /\
      forall b, bytes b -> step s (a ++ b) = SGo s' (rest ++ b) busy ev
  | SMore s' ev => inv s' /\ forall b, bytes b -> b <> [] -> step s (a ++ b) = sev ev (step s' b)
  | SStop s' rest ev => inv s' /\ bytes rest /\
      forall b, bytes b -> step s (a ++ b) = SStop s' (rest ++ b) ev
  | SErr e s' ev => inv s' /\ forall b, bytes b -> step s (a ++ b) = SErr e s' ev
  | SAbort => False
  end.
Hypothesis H_step : forall s a, inv s -> bytes a -> runnable s a -> step_ok s a (step s a).

Lemma H_go : forall s a s' r busy ev, inv s -> bytes a -> runnable s a ->
  step s a = SGo s' r busy ev ->
  inv s' /\ bytes r /\ (measure s' r < measure s a)%nat /\ (busy = true -> ce s') /\
  forall b, bytes b -> step s (a ++ b) = SGo s' (r ++ b) busy ev.
Proof. intros s a s' r busy ev I B R E. pose proof (H_step s a I B R) as H. rewrite E in H. exact H. Qed.
Lemma H_more : forall s a s' ev, inv s -> bytes a -> runnable s a -> step s a = SMore s' ev ->
  inv s' /\ forall b, bytes b -> b <> [] -> step s (a ++ b) = sev ev (step s' b).
Proof. intros s a s' ev I B R E. pose proof (H_step s a I B R) as H. rewrite E in H. exact H. Qed.
Lemma H_stop : forall s a s' r ev, inv s -> bytes a -> runnable s a -> step s a = SStop s' r ev ->
  inv s' /\ bytes r /\ forall b, bytes b -> step s (a ++ b) = SStop s' (r ++ b) ev.
Proof. intros s a s' r ev I B R E. pose proof (H_step s a I B R) as H. rewrite E in H. exact H. Qed.
Lemma H_err : forall s a e s' ev, inv s -> bytes a -> runnable s a -> step s a = SErr e s' ev ->
  inv s' /\ forall b, bytes b -> step s (a ++ b) = SErr e s' ev.
Proof. intros s a e s' ev I B R E. pose proof (H_step s a I B R) as H. rewrite E in H. exact H. Qed.
Lemma H_abort : forall s a, inv s -> bytes a -> runnable s a -> step s a <> SAbort.
Proof. intros s a I B R E. pose proof (H_step s a I B R) as H. rewrite E in H. exact H. Qed.

Lemma rev_nil r : rev_ [] r = r. Proof. destruct r; reflexivity. Qed.
Lemma rev_app a b r : rev_ a (rev_ b r) = rev_ (a ++ b) r.
Proof. destruct r; cbn; rewrite ?app_assoc; reflexivity. Qed.

Definition turn (s : St) (p : list Z) (k : St -> list Z -> bool -> rres) : rres :=
  match step s p with
  | SGo s' rest b ev => rev_ ev (k s' rest b)
  | SMore s' ev => ROk s' ev
  | SStop s' rest ev => RStop s' rest ev
  | SErr e s' ev => RErr e s' ev
  | SAbort => RAbort
  end.

Lemma run_fuel_S f s p busy :
  (p = [] /\ busy = false /\ run_fuel (S f) s p busy = ROk s []) \/
  ((busy = true -> ce s) -> runnable s p) /\ run_fuel (S f) s p busy = turn s p (run_fuel f).
Proof.
  destruct p as [|x p]; [destruct busy|].
  - right; split; [intros H; right; auto|reflexivity].
  - left; auto.
  - right; split; [intros H; left; discriminate|reflexivity].
Qed.

Lemma run_fuel_irrel f1 : forall f2 s p busy, inv s -> bytes p -> (busy = true -> ce s) ->
  (measure s p < f1)%nat -> (measure s p < f2)%nat ->
  run_fuel f1 s p busy = run_fuel f2 s p busy.
Proof.
  induction f1 as [|f1 IH]; intros f2 s p busy Hi Hb Hc H1 H2; [lia|].
  destruct f2 as [|f2]; [lia|].
  destruct (run_fuel_S f1 s p busy) as [(-> & -> & E1)|[R E1]]; [reflexivity|].
  destruct (run_fuel_S f2 s p busy) as [(-> & -> & E2)|[_ E2]]; [reflexivity|].
  rewrite E1, E2. unfold turn.
  destruct (step s p) as [s' r b ev|s' ev|s' r ev|e s' ev|] eqn:E; auto.
  destruct (H_go _ _ _ _ _ _ Hi Hb (R Hc) E) as (I & B & M & C & _). f_equal; apply IH; auto; lia.
Qed.

Lemma run_nil s : run s [] false = ROk s [].
Proof. unfold run; reflexivity. Qed.

Lemma run_turn s p busy : inv s -> bytes p -> (busy = true -> ce s) -> (p <> [] \/ busy = true) ->
  run s p busy = turn s p run.
Proof.
  intros Hi Hb Hc Hne. unfold run at 1.
  destruct (run_fuel_S (measure s p) s p busy) as [(-> & -> & E1)|[R ->]]; [destruct Hne; congruence|].
  unfold turn. destruct (step s p) as [s' r b ev|s' ev|s' r ev|e s' ev|] eqn:E; auto.
  destruct (H_go _ _ _ _ _ _ Hi Hb (R Hc) E) as (I & B & M & C & _). f_equal; apply run_fuel_irrel; auto.
Qed.
Lemma run_turn_cons s x p busy : inv s -> bytes (x :: p) -> (busy = true -> ce s) ->
  run s (x :: p) busy = turn s (x :: p) run.
Proof. intros; apply run_turn; auto; left; discriminate. Qed.

Definition good (r : rres) : Prop :=
  match r with
  | ROk s' _ => inv s'
  | RStop s' r _ => inv s' /\ bytes r
  | RErr _ s' _ => inv s'
  | RAbort => False
  end.
(* results satisfy the invariant, and the reader never aborts *)
Lemma run_good s p busy : inv s -> bytes p -> (busy = true -> ce s) -> good (run s p busy).
Proof.
  unfold run. assert (G : forall f s p busy, inv s -> bytes p -> (busy = true -> ce s) ->
    (measure s p < f)%nat -> good (run_fuel f s p busy)); [|intros; apply G; auto].
  induction f as [|f IH]; intros s0 p0 b0 Hi Hb Hc Hm; [lia|].
  destruct (run_fuel_S f s0 p0 b0) as [(-> & -> & ->)|[R ->]]; [exact Hi|].
  specialize (R Hc). unfold turn.
  destruct (step s0 p0) as [s' r b ev|s' ev|s' r ev|e s' ev|] eqn:E.
  - destruct (H_go _ _ _ _ _ _ Hi Hb R E) as (I & B & M & C & _).
    specialize (IH s' r b I B C ltac:(lia)). destruct (run_fuel f s' r b); exact IH.
  - apply (H_more _ _ _ _ Hi Hb R E).
  - destruct (H_stop _ _ _ _ _ Hi Hb R E) as (I & B & _). split; auto.
  - apply (H_err _ _ _ _ _ Hi Hb R E).
  - exact (H_abort _ _ Hi Hb R E).
Qed.

Lemma run_app s a b busy : inv s -> bytes a -> bytes b -> (busy = true -> ce s) ->
  run s (a ++ b) busy =
  match run s a busy with
  | ROk s' ev => rev_ ev (run s' b false)
  | RStop s' rest ev => RStop s' (rest ++ b) ev
  | RErr e s' ev => RErr e s' ev
  | RAbort => RAbort
  end.
Proof.
  remember (measure s a) as m eqn:Em. revert s a busy Em.
  induction m as [m IH] using (well_founded_induction Wf_nat.lt_wf). intros s a busy Em Hi Ha Hb Hc.
  destruct b as [|y b].
  { rewrite app_nil_r. destruct (run s a busy); cbn; rewrite ?run_nil, ?app_nil_r; cbn; rewrite ?app_nil_r; reflexivity. }
  assert (Hab : bytes (a ++ y :: b)) by (apply bytes_app; auto).
  assert (D : (a = [] /\ busy = false) \/ (a <> [] \/ busy = true)).
  { destruct a; [destruct busy; auto|right; left; discriminate]. }
  destruct D as [[-> ->]|D].
  { rewrite run_nil. cbn [app]. rewrite rev_nil. reflexivity. }
  assert (R : runnable s a) by (destruct D; [left; auto|right; auto]).
  rewrite (run_turn s a busy) by auto.
  rewrite (run_turn s (a ++ y :: b) busy) by (auto; left; destruct a; discriminate).
  unfold turn.
  destruct (step s a) as [s' r bz ev|s' ev|s' r ev|e s' ev|] eqn:E.
  - destruct (H_go _ _ _ _ _ _ Hi Ha R E) as (I & B & M & C & Q). rewrite (Q _ Hb).
    rewrite (IH (measure s' r) ltac:(lia) s' r bz eq_refl I B Hb C).
    destruct (run s' r bz); cbn; rewrite ?rev_app; reflexivity.
  - destruct (H_more _ _ _ _ Hi Ha R E) as (I & Q). rewrite Q by (auto; discriminate).
    rewrite (run_turn_cons s' y b false) by (auto; discriminate). unfold turn.
    destruct (step s' (y :: b)); cbn; rewrite ?rev_app; auto.
  - destruct (H_stop _ _ _ _ _ Hi Ha R E) as (I & B & Q). rewrite Q by auto. reflexivity.
  - destruct (H_err _ _ _ _ _ Hi Ha R E) as (I & Q). rewrite Q by auto. reflexivity.
  - exfalso. exact (H_abort _ _ Hi Ha R E).
Qed.

(* Feeding pieces is the same as feeding the concatenation (after a stop, the input
   not read by the cut run is what the pieces not fed would have added). *)
Lemma feed_concat ps : forall s, inv s -> bytes (concat ps) ->
  match feed s ps, run s (concat ps) false with
  | ROk s1 e1, ROk s2 e2 => s1 = s2 /\ e1 = e2
  | RStop s1 r1 e1, RStop s2 r2 e2 => s1 = s2 /\ e1 = e2 /\ exists t, r2 = r1 ++ t
  | RErr e1 s1 v1, RErr e2 s2 v2 => e1 = e2 /\ s1 = s2 /\ v1 = v2
  | _, _ => False
  end.
Proof.
  induction ps as [|p ps IH]; intros s Hi Hb; cbn [feed concat].
  - rewrite run_nil. auto.
  - cbn [concat] in Hb. apply bytes_app in Hb as [Hp Hc].
    rewrite run_app by (auto; discriminate). pose proof (run_good s p false Hi Hp ltac:(discriminate)) as RI.
    destruct (run s p false) as [s' ev|s' r ev|e s' ev|] eqn:R; cbn [seq_res].
    + specialize (IH s' RI Hc).
      destruct (feed s' ps), (run s' (concat ps) false); cbn; auto.
      * destruct IH as [-> ->]; split; reflexivity.
      * destruct IH as (-> & -> & t & ->). repeat split. eexists; reflexivity.
      * destruct IH as (-> & -> & ->); repeat split.
    + split; [auto|split; [auto|eauto]].
    + repeat split.
    + destruct RI.
Qed.
End Chunk.
Arguments sres : clear implicits.
Arguments rres : clear implicits.
