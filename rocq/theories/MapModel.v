(* Model of the hash map, lib/nghttp3_map.c: open addressing with Robin Hood displacement.  A
   connection keeps its streams in it, and the QPACK encoder its outstanding sections.
   The data pointer is a number; NULL is 0.  An empty bucket is None: the other fields of a
   bucket whose data is NULL are never read.  The table is a function from the bucket index. *)
From Verif Require Import Base.
Open Scope Z_scope.

(* lib/nghttp3_map.h:43-47 *)
Record bkt := mk_bkt { psl : Z; key : Z; data : Z }.
(* lib/nghttp3_map.h:49-54 *)
Record hmap := mk_hmap { m_tab : Z -> option bkt; m_size : Z; m_bits : Z }.

Definition MAP_EINVAL : Z := -101.   (* NGHTTP3_ERR_INVALID_ARGUMENT *)
Definition MAP_ENOMEM : Z := -901.   (* NGHTTP3_ERR_NOMEM *)

Definition no_tab : Z -> option bkt := fun _ => None.
Definition tset (t : Z -> option bkt) (i : Z) (v : option bkt) : Z -> option bkt :=
  fun j => if j =? i then v else t j.

(* nghttp3_map_init, :37-42 *)
Definition map_init : hmap := mk_hmap no_tab 0 0.

(* 1u << bits: unsigned int, so bits < 32 or the behaviour is undefined (see map_resize) *)
Definition tlen (bits : Z) : Z := 2 ^ bits.
(* (idx + 1) & mask *)
Definition next_idx (bits idx : Z) : Z := Z.land (idx + 1) (tlen bits - 1).
(* hash, :80-82 *)
Definition hash (k bits : Z) : Z := Z.shiftr ((k * 11400714819323198485) mod 2 ^ 64) (64 - bits).

(* the occupied buckets in the order of their index: the loops of nghttp3_map_each :65-76 and of
   map_resize :166-176 *)
Fixpoint buckets_upto (t : Z -> option bkt) (n : nat) : list bkt :=
  match n with
  | O => []
  | S k => buckets_upto t k ++ match t (Z.of_nat k) with Some b => [b] | None => [] end
  end.
Definition buckets (t : Z -> option bkt) (bits : Z) : list bkt := buckets_upto t (Z.to_nat (tlen bits)).

(* ++b.psl, uint32_t *)
Definition farther (b : bkt) : bkt := mk_bkt ((psl b + 1) mod 2 ^ 32) (key b) (data b).

(* the loop of insert, :125-147; [k0] is the parameter [key], [b] the bucket being placed *)
Fixpoint insert_loop (fuel : nat) (t : Z -> option bkt) (bits k0 idx : Z) (b : bkt) : outcome (Z -> option bkt) :=
  match fuel with
  | O => Abort
  | S f =>
    match t idx with
    | None => Ok (tset t idx (Some b))
    | Some c =>
      if psl b >? psl c then insert_loop f (tset t idx (Some b)) bits k0 (next_idx bits idx) (farther c)
      else if key c =? k0 then Err MAP_EINVAL
      else insert_loop f t bits k0 (next_idx bits idx) (farther b)
    end
  end.
(* insert, :115-148.  The loop has no bound in C: the fuel is the table length, and running out of
   it is Abort, so that the theorems say that it ends *)
Definition insert (t : Z -> option bkt) (bits k d : Z) : outcome (Z -> option bkt) :=
  insert_loop (Z.to_nat (tlen bits)) t bits k (hash k bits) (mk_bkt 0 k d).

(* :165-176, with assert(0 == rv) *)
Fixpoint reinsert (t : Z -> option bkt) (bits : Z) (l : list bkt) : outcome (Z -> option bkt) :=
  match l with
  | [] => Ok t
  | b :: l' => match insert t bits (key b) (data b) with Ok t' => reinsert t' bits l' | _ => Abort end
  end.
(* map_resize, :150-185; [mem]: whether nghttp3_mem_calloc succeeds *)
Definition map_resize (m : hmap) (bits : Z) (mem : bool) : outcome hmap :=
  if 32 <=? bits then Abort                                  (* 1u << new_hashbits *)
  else if negb mem then Err MAP_ENOMEM
  else
    match (if m_size m =? 0 then Ok no_tab else reinsert no_tab bits (buckets (m_tab m) (m_bits m))) with
    | Ok t => Ok (mk_hmap t (m_size m) bits)
    | Err e => Err e
    | Abort => Abort
    end.

(* nghttp3_map_insert, :187-217: the return value and the map *)
Definition map_insert (m : hmap) (k d : Z) (mem : bool) : outcome (Z * hmap) :=
  if d =? 0 then Abort                                       (* assert(data) *)
  else
    let grown :=
      if (m_size m + 1) * 4 >? (tlen (m_bits m) * 3) mod 2 ^ 32 then
        map_resize m (if m_bits m =? 0 then 4 else m_bits m + 1) mem
      else Ok m in
    match grown with
    | Ok m' =>
      match insert (m_tab m') (m_bits m') k d with
      | Ok t => Ok (0, mk_hmap t (m_size m' + 1) (m_bits m'))
      | Err e => Ok (e, m')
      | Abort => Abort
      end
    | Err e => Ok (e, m)
    | Abort => Abort
    end.

(* the loop common to nghttp3_map_find :230-243 and nghttp3_map_remove :259-289: the index of the
   bucket of the key *)
Fixpoint seek (fuel : nat) (t : Z -> option bkt) (bits k idx p : Z) : outcome (option Z) :=
  match fuel with
  | O => Abort
  | S f =>
    match t idx with
    | None => Ok None
    | Some c => if p >? psl c then Ok None
                else if key c =? k then Ok (Some idx)
                else seek f t bits k (next_idx bits idx) (p + 1)
    end
  end.
Definition map_seek (m : hmap) (k : Z) : outcome (option Z) :=
  seek (Z.to_nat (tlen (m_bits m))) (m_tab m) (m_bits m) k (hash k (m_bits m)) 0.

(* nghttp3_map_find, :219-244: the data, or NULL *)
Definition map_find (m : hmap) (k : Z) : outcome Z :=
  if m_size m =? 0 then Ok 0
  else match map_seek m k with
       | Ok (Some i) => match m_tab m i with Some c => Ok (data c) | None => Abort end
       | Ok None => Ok 0
       | Err e => Err e
       | Abort => Abort
       end.

(* the inner loop of nghttp3_map_remove, :270-283: [h] is the index of [b] *)
Fixpoint shift_back (fuel : nat) (t : Z -> option bkt) (bits h idx : Z) : outcome (Z -> option bkt) :=
  match fuel with
  | O => Abort
  | S f =>
    match t idx with
    | None => Ok (tset t h None)
    | Some c =>
      if psl c =? 0 then Ok (tset t h None)
      else
        let c' := mk_bkt (psl c - 1) (key c) (data c) in
        shift_back f (tset (tset t idx (Some c')) h (Some c')) bits idx (next_idx bits idx)
    end
  end.
(* nghttp3_map_remove, :246-290 *)
Definition map_remove (m : hmap) (k : Z) : outcome (Z * hmap) :=
  if m_size m =? 0 then Ok (MAP_EINVAL, m)
  else match map_seek m k with
       | Ok (Some i) =>
         match shift_back (Z.to_nat (tlen (m_bits m))) (m_tab m) (m_bits m) i (next_idx (m_bits m) i) with
         | Ok t => Ok (0, mk_hmap t (m_size m - 1) (m_bits m))
         | Err e => Err e
         | Abort => Abort
         end
       | Ok None => Ok (MAP_EINVAL, m)
       | Err e => Err e
       | Abort => Abort
       end.

(* nghttp3_map_clear, :292-299 *)
Definition map_clear (m : hmap) : hmap := if m_size m =? 0 then m else mk_hmap no_tab 0 (m_bits m).

(* nghttp3_map_each, :52-78: the data the callback is given, in order, and the return value *)
Fixpoint call_each (func : Z -> Z) (l : list bkt) : list Z * Z :=
  match l with
  | [] => ([], 0)
  | b :: l' => if func (data b) =? 0 then let (v, r) := call_each func l' in (data b :: v, r)
               else ([data b], func (data b))
  end.
Definition map_each (m : hmap) (func : Z -> Z) : list Z * Z :=
  if m_size m =? 0 then ([], 0) else call_each func (buckets (m_tab m) (m_bits m)).

(* one call of the interface *)
Inductive mop :=
| MInsert (k d : Z) (mem : bool)
| MFind (k : Z)
| MRemove (k : Z)
| MClear
| MSize
| MEach (func : Z -> Z).
Inductive mans :=
| AnsRv (rv : Z)          (* insert, remove *)
| AnsData (d : Z)         (* find; 0 is NULL *)
| AnsSize (n : Z)
| AnsVisited (v : list Z) (rv : Z)
| AnsDone.
Definition map_step (m : hmap) (o : mop) : outcome (mans * hmap) :=
  match o with
  | MInsert k d mem => match map_insert m k d mem with Ok (rv, m') => Ok (AnsRv rv, m') | Err e => Err e | Abort => Abort end
  | MFind k => match map_find m k with Ok d => Ok (AnsData d, m) | Err e => Err e | Abort => Abort end
  | MRemove k => match map_remove m k with Ok (rv, m') => Ok (AnsRv rv, m') | Err e => Err e | Abort => Abort end
  | MClear => Ok (AnsDone, map_clear m)
  | MSize => Ok (AnsSize (m_size m), m)
  | MEach f => let (v, r) := map_each m f in Ok (AnsVisited v r, m)
  end.
Fixpoint map_run (m : hmap) (ops : list mop) : outcome (list mans * hmap) :=
  match ops with
  | [] => Ok ([], m)
  | o :: ops' =>
    match map_step m o with
    | Ok (a, m1) => match map_run m1 ops' with Ok (l, m2) => Ok (a :: l, m2) | Err e => Err e | Abort => Abort end
    | Err e => Err e
    | Abort => Abort
    end
  end.
