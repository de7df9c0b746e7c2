(* An abstract priority queue: a set of entries; popping removes one with no smaller key *)
From Verif Require Import Base PqModel.

Inductive qop := QPush (x : Z) | QPop | QRemove (x : Z) | QKey (x k : Z).
(* keys are changed only outside the queue *)
Inductive qstep (klt : Z -> Z -> bool) : (Z -> Z) * list Z -> qop -> (Z -> Z) * list Z -> Prop :=
| qs_push key l x : ~ In x l -> qstep klt (key, l) (QPush x) (key, x :: l)
| qs_pop key l1 m l2 : (forall y, In y (l1 ++ m :: l2) -> klt (key y) (key m) = false) -> qstep klt (key, l1 ++ m :: l2) QPop (key, l1 ++ l2)
| qs_remove key l1 x l2 : qstep klt (key, l1 ++ x :: l2) (QRemove x) (key, l1 ++ l2)
| qs_key key l x k : ~ In x l -> qstep klt (key, l) (QKey x k) (upd_z key x k, l).
Inductive qrun (klt : Z -> Z -> bool) : (Z -> Z) * list Z -> list qop -> (Z -> Z) * list Z -> Prop :=
| qr_nil s : qrun klt s [] s
| qr_cons s op s1 ops s2 : qstep klt s op s1 -> qrun klt s1 ops s2 -> qrun klt s (op :: ops) s2.
(* strict weak order on keys *)
Definition strict_weak (klt : Z -> Z -> bool) : Prop :=
  (forall a b, klt a b = true -> klt b a = false) /\ (forall a b c, klt a b = false -> klt b c = false -> klt a c = false).

(* the calls on the model *)
Definition q_do (klt : Z -> Z -> bool) (key : Z -> Z) (p : pq) (op : qop) : outcome ((Z -> Z) * pq) :=
  let less x y := klt (key x) (key y) in
  match op with
  | QPush x => Ok (key, pq_push less p x)
  | QPop => match pq_pop less p with Ok p' => Ok (key, p') | Err e => Err e | Abort => Abort end
  | QRemove x => match pq_remove less p x with Ok p' => Ok (key, p') | Err e => Err e | Abort => Abort end
  | QKey x k => Ok (upd_z key x k, p)
  end.
Fixpoint q_all (klt : Z -> Z -> bool) (key : Z -> Z) (p : pq) (ops : list qop) : outcome ((Z -> Z) * pq) :=
  match ops with
  | [] => Ok (key, p)
  | op :: ops' => match q_do klt key p op with Ok (key', p') => q_all klt key' p' ops' | Err e => Err e | Abort => Abort end
  end.

Definition contents (p : pq) : list Z := map (pq_q p) (seq 0 (pq_len p)).
(* the calls are used as intended: an entry is not pushed twice, only entries in the queue are
   removed, a key is not changed while in the queue *)
Definition proper_op (c : list Z) (op : qop) : Prop :=
  match op with QPush x | QKey x _ => ~ In x c | QRemove x => In x c | QPop => c <> [] end.
Fixpoint proper_use (klt : Z -> Z -> bool) (key : Z -> Z) (p : pq) (ops : list qop) : Prop :=
  match ops with
  | [] => True
  | op :: ops' => proper_op (contents p) op /\ match q_do klt key p op with Ok (key', p') => proper_use klt key' p' ops' | _ => True end
  end.
