(* More about the chunk loop of Chunk.v: a relation between the states, events and unread
   input kept by every turn is kept by the run. *)
From Verif Require Import Base BaseLemmas Chunk.
Section Chunk2.
Context {St Ev : Type}.
Variable step : St -> list Z -> sres St Ev.
Variable K : nat.
Variable rank : St -> nat.
Variable inv : St -> Prop.
Variable ce : St -> Prop.
Hypothesis H_step : forall s a, inv s -> bytes a -> runnable ce s a -> step_ok step K rank inv ce s a (step s a).

(* [R s p evs s' rest]: from s, reading p, with events evs, to s' with rest unread *)
Variable R : St -> list Z -> list Ev -> St -> list Z -> Prop.
Hypothesis R_refl : forall s, inv s -> R s [] [] s [].
Hypothesis R_trans : forall s1 p1 e1 s2 p2 e2 s3 p3,
  R s1 p1 e1 s2 p2 -> R s2 p2 e2 s3 p3 -> R s1 p1 (e1 ++ e2) s3 p3.
Hypothesis R_step : forall s a, inv s -> bytes a -> runnable ce s a ->
  match step s a with
  | SGo s' rest _ ev | SStop s' rest ev => R s a ev s' rest
  | SMore s' ev => R s a ev s' []
  | _ => True
  end.
Lemma run_rel s p busy : inv s -> bytes p -> (busy = true -> ce s) ->
  match run step K rank s p busy with
  | ROk s' ev => R s p ev s' []
  | RStop s' rest ev => R s p ev s' rest
  | _ => True
  end.
Proof.
  unfold run. generalize (Nat.lt_succ_diag_r (measure K rank s p)).
  generalize (S (measure K rank s p)). intros f. revert s p busy.
  induction f as [|f IH]; intros s p busy Hm Hi Hb Hc; [lia|].
  destruct (run_fuel_S step ce f s p busy) as [(-> & -> & ->)|[Rn ->]]; [apply R_refl; auto|].
  specialize (Rn Hc). pose proof (R_step s p Hi Hb Rn) as RS. pose proof (H_step s p Hi Hb Rn) as SO.
  unfold turn. destruct (step s p) as [s' rest b ev|s' ev|s' rest ev|e s' ev|]; auto.
  destruct SO as (S1 & S2 & S3 & S4 & _). specialize (IH s' rest b ltac:(lia) S1 S2 S4).
  destruct (run_fuel step f s' rest b) as [s2 e2|s2 r2 e2|e s2 e2|]; cbn [rev_]; auto; eapply R_trans; eauto.
Qed.

End Chunk2.
Section Chunk3.
Context {St Ev : Type}.
Variable step : St -> list Z -> sres St Ev.
Variable K : nat.
Variable rank : St -> nat.
Variable inv : St -> Prop.
Variable ce : St -> Prop.
Hypothesis H_step : forall s a, inv s -> bytes a -> runnable ce s a -> step_ok step K rank inv ce s a (step s a).
(* a property of all events, errors included *)
Variable P : Ev -> Prop.
Hypothesis P_step : forall s a, inv s -> bytes a -> runnable ce s a ->
  match step s a with
  | SGo _ _ _ ev | SMore _ ev | SStop _ _ ev | SErr _ _ ev => Forall P ev
  | SAbort => True
  end.
Lemma run_evs s p busy : inv s -> bytes p -> (busy = true -> ce s) ->
  match run step K rank s p busy with
  | ROk _ ev | RStop _ _ ev | RErr _ _ ev => Forall P ev
  | RAbort => True
  end.
Proof.
  unfold run. generalize (Nat.lt_succ_diag_r (measure K rank s p)).
  generalize (S (measure K rank s p)). intros f. revert s p busy.
  induction f as [|f IH]; intros s p busy Hm Hi Hb Hc; [lia|].
  destruct (run_fuel_S step ce f s p busy) as [(-> & -> & ->)|[Rn ->]]; [constructor|].
  specialize (Rn Hc). pose proof (P_step s p Hi Hb Rn) as RS. pose proof (H_step s p Hi Hb Rn) as SO.
  unfold turn. destruct (step s p) as [s' rest b ev|s' ev|s' rest ev|e s' ev|]; auto.
  destruct SO as (S1 & S2 & S3 & S4 & _). specialize (IH s' rest b ltac:(lia) S1 S2 S4).
  destruct (run_fuel step f s' rest b) as [s2 e2|s2 r2 e2|e s2 e2|]; cbn [rev_]; auto; apply Forall_app; auto.
Qed.
End Chunk3.
Section Chunk4.
Context {St Ev : Type}.
Variable step : St -> list Z -> sres St Ev.
Variable K : nat.
Variable rank : St -> nat.
Variable inv : St -> Prop.
Variable ce : St -> Prop.
Hypothesis H_step : forall s a, inv s -> bytes a -> runnable ce s a -> step_ok step K rank inv ce s a (step s a).
(* a relation kept by every turn, and a property of the events up to an error *)
Variable R : St -> list Ev -> St -> Prop.
Variable Q : St -> list Ev -> Prop.
Hypothesis R_refl : forall s, R s [] s.
Hypothesis R_trans : forall s1 e1 s2 e2 s3, R s1 e1 s2 -> R s2 e2 s3 -> R s1 (e1 ++ e2) s3.
Hypothesis Q_trans : forall s1 e1 s2 e2, R s1 e1 s2 -> Q s2 e2 -> Q s1 (e1 ++ e2).
Hypothesis RQ_step : forall s a, inv s -> bytes a -> runnable ce s a ->
  match step s a with
  | SGo s' _ _ ev | SStop s' _ ev | SMore s' ev => R s ev s'
  | SErr _ _ ev => Q s ev
  | SAbort => True
  end.
Lemma run_relq s p busy : inv s -> bytes p -> (busy = true -> ce s) ->
  match run step K rank s p busy with
  | ROk s' ev | RStop s' _ ev => R s ev s'
  | RErr _ _ ev => Q s ev
  | RAbort => True
  end.
Proof.
  unfold run. generalize (Nat.lt_succ_diag_r (measure K rank s p)).
  generalize (S (measure K rank s p)). intros f. revert s p busy.
  induction f as [|f IH]; intros s p busy Hm Hi Hb Hc; [lia|].
  destruct (run_fuel_S step ce f s p busy) as [(-> & -> & ->)|[Rn ->]]; [apply R_refl; auto|].
  specialize (Rn Hc). pose proof (RQ_step s p Hi Hb Rn) as RS. pose proof (H_step s p Hi Hb Rn) as SO.
  unfold turn. destruct (step s p) as [s' rest b ev|s' ev|s' rest ev|e s' ev|]; auto.
  destruct SO as (S1 & S2 & S3 & S4 & _). specialize (IH s' rest b ltac:(lia) S1 S2 S4).
  destruct (run_fuel step f s' rest b) as [s2 e2|s2 r2 e2|e s2 e2|]; cbn [rev_]; auto; eauto.
Qed.
End Chunk4.
