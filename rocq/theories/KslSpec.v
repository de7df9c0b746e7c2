(* Specification of the ordered index: a sequence of (key, data) pairs in increasing order of the
   keys.  Nothing here refers to blocks, nodes or levels.  [lt] is the compar function. *)
From Verif Require Import Base.
Open Scope nat_scope.

Section Spec.
Variables (K D : Type) (lt : K -> K -> bool).
Definition index : Type := list (K * D).
Definition same (x y : K) : Prop := lt x y = false /\ lt y x = false.
Definition present (q : K) (l : index) : Prop := exists x, In x l /\ same (fst x) q.
Definition absent (q : K) (l : index) : Prop := ~ present q l.

Inductive kop : Type :=
| KInsert (q : K) (d : D)
| KRemove (q : K)
| KRemoveHint (n : nat)             (* with the iterator of the entry number n as a hint, and its key *)
| KLower (p : K -> bool)            (* nghttp3_ksl_lower_bound(q): p k = lt k q *)
| KUpdate (old new : K)
| KLen
| KClear.
(* an answer: the return value, and the entries seen from the returned iterator to the end *)
Inductive kans : Type :=
| AnsIt (rv : Z) (rest : list (K * D))
| AnsNoIt (rv : Z)                  (* no iterator is assigned *)
| AnsLen (n : nat)
| AnsVoid.

(* what the caller has to guarantee *)
Definition op_ok (l : index) (o : kop) : Prop :=
  match o with
  | KRemoveHint n => n < length l
  | KLower p => forall x y, lt y x = false -> p y = true -> p x = true
  | KUpdate old new => lt new old = false /\ exists s1 x s2, l = s1 ++ x :: s2 /\ same (fst x) old /\ forall y, In y s2 -> lt new (fst y) = true
  | _ => True
  end.

(* an operation, the answer and the next contents *)
Inductive s_step (l : index) : kop -> kans -> index -> Prop :=
| sp_insert : forall q d s1 s2, l = s1 ++ s2 -> (forall x, In x s1 -> lt (fst x) q = true) -> (forall x, In x s2 -> lt q (fst x) = true) ->
    s_step l (KInsert q d) (AnsIt 0 ((q, d) :: s2)) (s1 ++ (q, d) :: s2)
| sp_insert_dup : forall q d, present q l -> s_step l (KInsert q d) (AnsIt (-101) []) l
| sp_remove : forall q s1 x s2, l = s1 ++ x :: s2 -> same (fst x) q -> s_step l (KRemove q) (AnsIt 0 s2) (s1 ++ s2)
| sp_remove_none : forall q, absent q l -> s_step l (KRemove q) (AnsIt (-101) []) l
| sp_remove_empty : forall q, l = [] -> s_step l (KRemove q) (AnsNoIt (-101)) l
| sp_remove_hint : forall n s1 x s2, l = s1 ++ x :: s2 -> length s1 = n -> s_step l (KRemoveHint n) (AnsIt 0 s2) (s1 ++ s2)
| sp_lower : forall p s1 s2, l = s1 ++ s2 -> (forall x, In x s1 -> p (fst x) = true) -> (forall x, In x s2 -> p (fst x) = false) ->
    s_step l (KLower p) (AnsIt 0 s2) l
| sp_update : forall old new s1 x s2, l = s1 ++ x :: s2 -> same (fst x) old ->
    s_step l (KUpdate old new) AnsVoid (s1 ++ (new, snd x) :: s2)
| sp_len : s_step l KLen (AnsLen (length l)) l
| sp_clear : s_step l KClear AnsVoid [].
Inductive s_run : index -> list kop -> list kans -> index -> Prop :=
| sr_nil : forall l, s_run l [] [] l
| sr_cons : forall l o a l1 ops r l2, s_step l o a l1 -> s_run l1 ops r l2 -> s_run l (o :: ops) (a :: r) l2.
(* every call finds its guarantee met, whatever the calls before it answered *)
Definition legal (ops : list kop) : Prop :=
  forall pre o post r l, ops = pre ++ o :: post -> s_run [] pre r l -> op_ok l o.
(* compar is a strict weak order *)
Definition order : Prop :=
  (forall x, lt x x = false) /\ (forall x y z, lt x y = true -> lt y z = true -> lt x z = true) /\
  (forall x y z, lt x z = true -> lt x y = true \/ lt y z = true).
Definition sorted (l : index) : Prop := forall a x b y c, l = a ++ x :: b ++ y :: c -> lt (fst x) (fst y) = true.
End Spec.
Arguments KInsert {K D}. Arguments KRemove {K D}. Arguments KRemoveHint {K D}. Arguments KLower {K D}. Arguments KUpdate {K D}. Arguments KLen {K D}. Arguments KClear {K D}.
Arguments AnsIt {K D}. Arguments AnsNoIt {K D}. Arguments AnsLen {K D}. Arguments AnsVoid {K D}.
