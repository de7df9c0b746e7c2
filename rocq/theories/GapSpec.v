(* What the trackers are for: sets of integers *)
From Verif Require Import Base GapModel.
Open Scope Z_scope.

(* the offsets covered by the pushes *)
Definition covered (pushes : list (Z * Z)) (x : Z) : Prop := exists o d, In (o, d) pushes /\ o <= x < o + d.
(* the offsets in a list of gaps *)
Definition inside (g : gaptr) (x : Z) : Prop := exists k, In k g /\ fst k <= x < snd k.
(* gaps in increasing order, nonempty, and not touching each other *)
Fixpoint gaps_ok (lo : Z) (g : gaptr) : Prop :=
  match g with [] => True | k :: g' => lo <= fst k < snd k /\ snd k <= u64_max /\ gaps_ok (snd k + 1) g' end.
(* the calls whose argument is new *)
Definition expect (seen : list Z) (id : Z) : Z := if existsb (Z.eqb (Z.div id 4)) (map (fun i => Z.div i 4) seen) then ERR_STREAM_IN_USE else 0.
Fixpoint expected (seen : list Z) (ids : list Z) : list Z :=
  match ids with [] => [] | id :: ids' => expect seen id :: expected (id :: seen) ids' end.
(* stream identifiers QUIC can carry *)
Definition stream_id_ok (id : Z) : Prop := 0 <= id <= max_varint.
(* the identifiers of the calls that returned 0 *)
Definition accepted (ids rvs : list Z) : list Z := map fst (filter (fun p => snd p =? 0) (combine ids rvs)).
Definition same_slot (a b : Z) : Prop := a / 4 = b / 4.
