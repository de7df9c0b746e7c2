(* Model of the priority queue, lib/nghttp3_pq.c.  The array of entry pointers is a function from
   positions (what lies beyond the length is left over, as in C), an entry is an identifier, and
   the index field of every entry is the function [pq_idx].  Growing the array (:75-89) is not
   modelled: it keeps the contents.  [less] is the callback, on entries *)
From Verif Require Import Base.

Record pq := mk_pq { pq_q : nat -> Z; pq_len : nat; pq_idx : Z -> nat }.
Definition upd_nat {A} (f : nat -> A) (i : nat) (v : A) : nat -> A := fun j => if Nat.eqb j i then v else f j.
Definition upd_z {A} (f : Z -> A) (i : Z) (v : A) : Z -> A := fun j => if Z.eqb j i then v else f j.
(* lib/nghttp3_pq.h:37 NGHTTP3_PQ_BAD_INDEX is SIZE_MAX; kept outside the queue by tnode *)
(* lib/nghttp3_pq.c:33-40 nghttp3_pq_init *)
Definition pq_init (idx : Z -> nat) : pq := mk_pq (fun _ => 0%Z) 0 idx.

Section PQ.
Variable less : Z -> Z -> bool.
(* lib/nghttp3_pq.c:50-58 swap *)
Definition pq_swap (p : pq) (i j : nat) : pq :=
  let a := pq_q p i in
  let b := pq_q p j in
  mk_pq (upd_nat (upd_nat (pq_q p) i b) j a) (pq_len p) (upd_z (upd_z (pq_idx p) b i) a j).
(* lib/nghttp3_pq.c:60-72 bubble_up; fuel: at most [index] turns *)
Fixpoint bubble_up (fuel : nat) (p : pq) (index : nat) : pq :=
  match fuel with
  | O => p
  | S f =>
    if Nat.eqb index 0 then p
    else
      let parent := ((index - 1) / 2)%nat in
      if negb (less (pq_q p index) (pq_q p parent)) then p
      else bubble_up f (pq_swap p parent index) parent
  end.
(* lib/nghttp3_pq.c:74-97 nghttp3_pq_push *)
Definition pq_push (p : pq) (item : Z) : pq :=
  let n := pq_len p in
  bubble_up (S n) (mk_pq (upd_nat (pq_q p) n item) (S n) (upd_z (pq_idx p) item n)) n.
(* lib/nghttp3_pq.c:99-102 nghttp3_pq_top *)
Definition pq_top (p : pq) : outcome Z := if Nat.eqb (pq_len p) 0 then Abort else Ok (pq_q p 0%nat).
(* lib/nghttp3_pq.c:104-128 bubble_down; fuel: at most [length] turns *)
Definition min_child (p : pq) (index : nat) : nat :=
  let j := (index * 2 + 1)%nat in
  if Nat.leb (pq_len p) j then index
  else
    let m := if less (pq_q p j) (pq_q p index) then j else index in
    let j2 := (j + 1)%nat in
    if Nat.leb (pq_len p) j2 then m
    else if less (pq_q p j2) (pq_q p m) then j2 else m.
Fixpoint bubble_down (fuel : nat) (p : pq) (index : nat) : pq :=
  match fuel with
  | O => p
  | S f =>
    let m := min_child p index in
    if Nat.eqb m index then p else bubble_down f (pq_swap p index m) m
  end.
(* lib/nghttp3_pq.c:130-137 nghttp3_pq_pop *)
Definition pq_pop (p : pq) : outcome pq :=
  if Nat.eqb (pq_len p) 0 then Abort
  else
    let x := pq_q p (pq_len p - 1)%nat in
    Ok (bubble_down (pq_len p) (mk_pq (upd_nat (pq_q p) 0 x) (pq_len p - 1) (upd_z (pq_idx p) x 0%nat)) 0).
(* lib/nghttp3_pq.c:139-161 nghttp3_pq_remove *)
Definition pq_remove (p : pq) (item : Z) : outcome pq :=
  let i := pq_idx p item in
  if negb (Z.eqb (pq_q p i) item) then Abort
  else if Nat.eqb i 0 then pq_pop p
  else if Nat.eqb i (pq_len p - 1) then Ok (mk_pq (pq_q p) (pq_len p - 1) (pq_idx p))
  else
    let x := pq_q p (pq_len p - 1)%nat in
    let p' := mk_pq (upd_nat (pq_q p) i x) (pq_len p - 1) (upd_z (pq_idx p) x i) in
    if less item x then Ok (bubble_down (pq_len p) p' i)
    else Ok (bubble_up (S i) p' i).
End PQ.
(* lib/nghttp3_pq.c:163-167 *)
Definition pq_empty (p : pq) : bool := Nat.eqb (pq_len p) 0.
Definition pq_size (p : pq) : nat := pq_len p.
Definition pq_clear (p : pq) : pq := mk_pq (pq_q p) 0 (pq_idx p).
