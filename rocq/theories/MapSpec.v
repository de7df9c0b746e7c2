(* Specification of the map: a finite partial function, as a list of (key, data) pairs.  Nothing
   here refers to buckets, hashes or table sizes. *)
From Verif Require Import Base MapModel.
From Coq Require Import Permutation.
Open Scope Z_scope.

Definition fmap := list (Z * Z).
Definition absent (k : Z) (s : fmap) : Prop := forall d, ~ In (k, d) s.
(* what nghttp3_map_each shows when it visits data in the order l *)
Inductive visits (func : Z -> Z) : list Z -> list Z -> Z -> Prop :=
| v_nil : visits func [] [] 0
| v_on : forall d l v r, func d = 0 -> visits func l v r -> visits func (d :: l) (d :: v) r
| v_stop : forall d l, func d <> 0 -> visits func (d :: l) [d] (func d).
(* every insertion of non-NULL data into a map of at most this many entries is covered *)
Definition MAP_LIMIT : Z := 805306368.

Inductive spec_step (s : fmap) : mop -> mans -> fmap -> Prop :=
| sp_insert : forall k d mem, absent k s -> spec_step s (MInsert k d mem) (AnsRv 0) ((k, d) :: s)
| sp_insert_dup : forall k d d' mem, In (k, d') s -> spec_step s (MInsert k d mem) (AnsRv MAP_EINVAL) s
| sp_insert_nomem : forall k d, spec_step s (MInsert k d false) (AnsRv MAP_ENOMEM) s
| sp_find : forall k d, In (k, d) s -> spec_step s (MFind k) (AnsData d) s
| sp_find_none : forall k, absent k s -> spec_step s (MFind k) (AnsData 0) s
| sp_remove : forall k d s', Permutation s ((k, d) :: s') -> spec_step s (MRemove k) (AnsRv 0) s'
| sp_remove_none : forall k, absent k s -> spec_step s (MRemove k) (AnsRv MAP_EINVAL) s
| sp_clear : spec_step s MClear AnsDone []
| sp_size : spec_step s MSize (AnsSize (Z.of_nat (length s))) s
| sp_each : forall f l v r, Permutation l (map snd s) -> visits f l v r -> spec_step s (MEach f) (AnsVisited v r) s.

(* a run of the specification; the hypotheses on the calls are in it: data is not NULL, and no
   insertion is made into a map with MAP_LIMIT entries *)
Inductive spec_run : fmap -> list mop -> list mans -> fmap -> Prop :=
| sr_nil : forall s, spec_run s [] [] s
| sr_cons : forall s o a s1 ops l s2, spec_step s o a s1 -> spec_run s1 ops l s2 -> spec_run s (o :: ops) (a :: l) s2.

Definition op_fine (o : mop) : Prop := match o with MInsert _ d _ => d <> 0 | _ => True end.
Fixpoint inserts (ops : list mop) : Z :=
  match ops with [] => 0 | MInsert _ _ _ :: l => 1 + inserts l | _ :: l => inserts l end.
