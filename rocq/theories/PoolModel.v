(* Model of the object pools: lib/nghttp3_balloc.c (pieces cut from large blocks), lib/nghttp3_opl.c
   (the list of released objects) and lib/nghttp3_objalloc.h (objects of one type), on a 64-bit
   machine.  Addresses are Z, NULL is 0.  The list of blocks and the list of released objects are
   kept where the code keeps them: in the blocks' headers and inside the released objects.  Memory
   is modelled as far as these links need it: [mem a] is the pointer stored at a *)
From Verif Require Import Base.
Import ListNotations.
Open Scope Z_scope.

(* one pool: sizeof(TYPE), the offset of its nghttp3_opl_entry, and the block length *)
Record cfg := mk_cfg { c_size : Z; c_off : Z; c_blklen : Z }.

(* lib/nghttp3_objalloc.h:45-48 nghttp3_objalloc, lib/nghttp3_balloc.h:54-66 nghttp3_balloc *)
Record pool := mk_pool {
  p_head : Z;        (* balloc.head: the newest block *)
  p_last : Z;        (* balloc.buf.last *)
  p_end : Z;         (* balloc.buf.end *)
  p_opl : Z;         (* opl.head *)
  p_mem : Z -> Z
}.
Definition set_mem (a v : Z) (m : Z -> Z) : Z -> Z := fun x => if x =? a then v else m x.

(* lib/nghttp3_objalloc.c:28-32 nghttp3_objalloc_init, nghttp3_balloc.c:32-40 nghttp3_balloc_init
   (the buffer is empty: it begins and ends at some address e), nghttp3_opl.c:28 *)
Definition pool_init (c : cfg) (e : Z) (m : Z -> Z) : outcome pool :=
  if negb (c_blklen c mod 16 =? 0) then Abort else Ok (mk_pool 0 e e 0 m).

(* (x + 0xf) & ~0xf *)
Definition up16 (x : Z) : Z := (x + 15) / 16 * 16.
(* sizeof(nghttp3_memblock_hd) *)
Definition hd_size : Z := 8.
Definition block_size (c : cfg) : Z := hd_size + 8 + c_blklen c.

(* lib/nghttp3_balloc.c:62-93 nghttp3_balloc_get; [fresh]: what malloc answers if it is called.
   Result 0: NGHTTP3_ERR_NOMEM *)
Definition cut (p : pool) (n : Z) : outcome (pool * Z) :=
  if negb (p_last p mod 16 =? 0) then Abort
  else Ok (mk_pool (p_head p) (p_last p + up16 n) (p_end p) (p_opl p) (p_mem p), p_last p).
Definition balloc_get (c : cfg) (p : pool) (n : Z) (fresh : Z) : outcome (pool * Z) :=
  if c_blklen c <? n then Abort
  else if p_end p - p_last p <? n then
    if fresh =? 0 then Ok (p, 0)
    else let b := up16 (fresh + hd_size) in
      cut (mk_pool fresh b (b + c_blklen c) (p_opl p) (set_mem fresh (p_head p) (p_mem p))) n
  else cut p n.

(* lib/nghttp3_opl.c:30-33 nghttp3_opl_push *)
Definition opl_push (p : pool) (ent : Z) : pool :=
  mk_pool (p_head p) (p_last p) (p_end p) ent (set_mem ent (p_opl p) (p_mem p)).
(* lib/nghttp3_opl.c:35-45 nghttp3_opl_pop *)
Definition opl_pop (p : pool) : pool * Z :=
  if p_opl p =? 0 then (p, 0)
  else (mk_pool (p_head p) (p_last p) (p_end p) (p_mem p (p_opl p)) (p_mem p), p_opl p).

(* lib/nghttp3_objalloc.h:87-103 nghttp3_objalloc_NAME_get *)
Definition pool_get (c : cfg) (p : pool) (fresh : Z) : outcome (pool * Z) :=
  let '(p1, ent) := opl_pop p in
  if ent =? 0 then balloc_get c p1 (c_size c) fresh else Ok (p1, ent - c_off c).
(* lib/nghttp3_objalloc.h:81-84 nghttp3_objalloc_NAME_release *)
Definition pool_release (c : cfg) (p : pool) (obj : Z) : pool := opl_push p (obj + c_off c).

(* lib/nghttp3_balloc.c:50-61 nghttp3_balloc_clear: the blocks given to free(), in that order;
   Abort: more than k of them *)
Fixpoint walk (k : nat) (m : Z -> Z) (b : Z) : outcome (list Z) :=
  if b =? 0 then Ok []
  else match k with
  | O => Abort
  | S j => match walk j m (m b) with Ok l => Ok (b :: l) | _ => Abort end
  end.
(* lib/nghttp3_objalloc.c:38-42 nghttp3_objalloc_clear *)
Definition pool_clear (k : nat) (p : pool) (e : Z) : outcome (pool * list Z) :=
  match walk k (p_mem p) (p_head p) with
  | Ok l => Ok (mk_pool 0 e e 0 (p_mem p), l)
  | _ => Abort
  end.

(* The pool with what surrounds it: the blocks malloc has given it, and the objects in use *)
Record world := mk_world { w_pool : pool; w_blocks : list Z; w_live : list Z }.
Inductive pop :=
| PGet (fresh : Z)                      (* an object is asked for *)
| PRelease (obj : Z)
| PUse (obj : Z) (f : Z -> Z)           (* its user stores anything inside an object *)
| PClear (e : Z).
Definition without (x : Z) (l : list Z) : list Z := filter (fun y => negb (y =? x)) l.
(* the result: the object handed out (0: none), and the blocks given back to free() *)
Definition pool_step (c : cfg) (w : world) (o : pop) : outcome (world * Z * list Z) :=
  match o with
  | PGet fresh =>
    match pool_get c (w_pool w) fresh with
    | Ok (p, obj) =>
      Ok (mk_world p (if p_head p =? p_head (w_pool w) then w_blocks w else fresh :: w_blocks w)
                   (if obj =? 0 then w_live w else obj :: w_live w), obj, [])
    | _ => Abort
    end
  | PRelease obj =>
    Ok (mk_world (pool_release c (w_pool w) obj) (w_blocks w) (without obj (w_live w)), 0, [])
  | PUse obj f =>
    let p := w_pool w in
    Ok (mk_world (mk_pool (p_head p) (p_last p) (p_end p) (p_opl p)
         (fun a => if (obj <=? a) && (a <? obj + c_size c) then f a else p_mem p a))
         (w_blocks w) (w_live w), 0, [])
  | PClear e =>
    match pool_clear (length (w_blocks w)) (w_pool w) e with
    | Ok (p, l) => Ok (mk_world p [] [], 0, l)
    | _ => Abort
    end
  end.
