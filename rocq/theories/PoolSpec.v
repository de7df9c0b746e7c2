(* What the users of an object pool rely on *)
From Verif Require Import Base PoolModel.
Import ListNotations.
Open Scope Z_scope.

(* the type fits into a block, and the link into the type *)
Definition fitting (c : cfg) : Prop :=
  0 <= c_off c /\ c_off c + 8 <= c_size c /\ c_size c <= c_blklen c /\ c_blklen c mod 16 = 0.

(* [a, a + n) and [b, b + m) have no byte in common *)
Definition apart (a n b m : Z) : Prop := a + n <= b \/ b + m <= a.
(* malloc's side: an aligned block apart from those it has given and not got back *)
Definition from_malloc (c : cfg) (w : world) (fresh : Z) : Prop :=
  fresh = 0 \/
  (0 < fresh /\ fresh mod 8 = 0 /\
   forall b, In b (w_blocks w) -> apart fresh (block_size c) b (block_size c)).
(* the users' side: only objects in use are written or released *)
Definition proper (c : cfg) (w : world) (o : pop) : Prop :=
  match o with
  | PGet fresh => from_malloc c w fresh
  | PRelease obj => In obj (w_live w)
  | PUse obj _ => In obj (w_live w)
  | PClear _ => True
  end.
Inductive pool_reach (c : cfg) : world -> Prop :=
| pool_start : forall e m p, pool_init c e m = Ok p -> pool_reach c (mk_world p [] [])
| pool_next : forall w o w' obj l, pool_reach c w -> proper c w o ->
    pool_step c w o = Ok (w', obj, l) -> pool_reach c w'.

(* an object lies in a block given by malloc, behind the header, on a 16 byte boundary *)
Definition in_block (c : cfg) (w : world) (obj : Z) : Prop :=
  obj mod 16 = 0 /\
  exists b, In b (w_blocks w) /\ b + hd_size <= obj /\ obj + c_size c <= b + block_size c.
