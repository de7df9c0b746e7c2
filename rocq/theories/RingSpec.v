(* A bounded double-ended queue: a capacity and a sequence *)
From Verif Require Import Base RingModel.
Open Scope Z_scope.

Inductive dop := DPushFront (v : Z) | DPushBack (v : Z) | DPopFront | DPopBack | DTruncate (n : Z) | DReserve (n : Z).
(* a push into a full queue drops the element at the other end *)
Inductive dstep : Z * list Z -> dop -> Z * list Z -> Prop :=
| ds_push_front c l v : 0 < c -> zlen l < c -> dstep (c, l) (DPushFront v) (c, v :: l)
| ds_push_front_full c l v x : 0 < c -> zlen (l ++ [x]) = c -> dstep (c, l ++ [x]) (DPushFront v) (c, v :: l)
| ds_push_back c l v : 0 < c -> zlen l < c -> dstep (c, l) (DPushBack v) (c, l ++ [v])
| ds_push_back_full c l v x : 0 < c -> zlen (x :: l) = c -> dstep (c, x :: l) (DPushBack v) (c, l ++ [v])
| ds_pop_front c x l : dstep (c, x :: l) DPopFront (c, l)
| ds_pop_back c l x : dstep (c, l ++ [x]) DPopBack (c, l)
| ds_truncate c l l' : dstep (c, l ++ l') (DTruncate (zlen l)) (c, l)
| ds_reserve c l n : dstep (c, l) (DReserve n) (Z.max c n, l).
Inductive drun : Z * list Z -> list dop -> Z * list Z -> Prop :=
| dr_nil s : drun s [] s
| dr_cons s op s1 ops s2 : dstep s op s1 -> drun s1 ops s2 -> drun s (op :: ops) s2.

(* the calls on the model *)
Definition d_do (junk : Z -> Z) (r : ring) (op : dop) : outcome ring :=
  match op with
  | DPushFront v => Ok (rb_push_front r v)
  | DPushBack v => Ok (rb_push_back r v)
  | DPopFront => Ok (rb_pop_front r)
  | DPopBack => rb_pop_back r
  | DTruncate n => rb_resize r n
  | DReserve n => rb_reserve junk r n
  end.
Fixpoint d_all (junk : nat -> Z -> Z) (r : ring) (ops : list dop) : outcome ring :=
  match ops with
  | [] => Ok r
  | op :: ops' => match d_do (junk (length ops)) r op with Ok r' => d_all junk r' ops' | Err e => Err e | Abort => Abort end
  end.
(* intended use, in terms of the number of elements and the capacity: nothing is popped from an
   empty queue, nothing pushed into a queue of capacity 0, sizes are powers of two below 2^32 *)
Definition pow2 (n : Z) : Prop := exists k, 0 <= k < 32 /\ n = 2 ^ k.
Definition d_proper (c len : Z) (op : dop) : Prop :=
  match op with
  | DPushFront _ | DPushBack _ => 0 < c
  | DPopFront | DPopBack => 0 < len
  | DTruncate n => 0 <= n <= len
  | DReserve n => pow2 n
  end.
Definition d_cl (c len : Z) (op : dop) : Z * Z :=
  match op with
  | DPushFront _ | DPushBack _ => (c, Z.min c (len + 1))
  | DPopFront | DPopBack => (c, len - 1)
  | DTruncate n => (c, n)
  | DReserve n => (Z.max c n, len)
  end.
Fixpoint d_use (c len : Z) (ops : list dop) : Prop :=
  match ops with [] => True | op :: ops' => d_proper c len op /\ d_use (fst (d_cl c len op)) (snd (d_cl c len op)) ops' end.
