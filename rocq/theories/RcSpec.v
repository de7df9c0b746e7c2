(* What it means that the buffers with header names and values are counted correctly *)
From Coq Require Import ZArith List Bool.
From Verif Require Import RcModel.
Import ListNotations.
Open Scope Z_scope.

(* how often a reference to buffer n occurs in a list *)
Definition is_buf (n : nat) (p : ptr) : Z :=
  match p with Buf m => if Nat.eqb n m then 1 else 0 | _ => 0 end.
Fixpoint count (n : nat) (l : list ptr) : Z :=
  match l with [] => 0 | p :: r => is_buf n p + count n r end.

(* everything that holds references: the two parsers' half-read names and values, the two dynamic
   tables, and the application *)
Definition of_parser (r : rst) : list ptr := [r_name r; r_value r].
Definition of_context (c : option rst) : list ptr :=
  match c with Some r => of_parser r | None => [] end.
Definition of_table (t : tabl) : list ptr := flat_map (fun e => [fst e; snd e]) t.
Definition holders (s : st) : list ptr :=
  (of_parser (d_rst s) ++ flat_map of_context (scs s))
    ++ of_table (d_tab s) ++ of_table (e_tab s) ++ app s.

(* What is asked of the application: it only counts references that it owns, and resets a stream
   context only where one header section ends and the next one begins *)
Definition lawful (s : st) (o : op) : Prop :=
  match o with
  | OIncref p | ODecref p => In p (app s)
  | OContextReset i =>
      match ctx_of s i with
      | Some r => r_at r = AtOp \/ r_at r = AtPrefix
      | None => True
      end
  | _ => True
  end.
Inductive reach : st -> Prop :=
| reach_init : reach init
| reach_step : forall s o s', reach s -> lawful s o -> step s o = Some s' -> reach s'.

(* what buffer n contains, None if it has been freed or never existed *)
Definition content (s : st) (n : nat) : option (list Z) :=
  match nth_error (hp s) n with Some (Some c) => Some (text c) | _ => None end.

(* a continuation of s in which the application never lets go of buffer n *)
Inductive keeping (n : nat) : st -> st -> Prop :=
| keeping_refl : forall s, In (Buf n) (app s) -> keeping n s s
| keeping_step : forall s o s1 s2, keeping n s s1 -> lawful s1 o -> step s1 o = Some s2 ->
    In (Buf n) (app s2) -> keeping n s s2.

(* decoder, encoder and stream contexts have been deleted, and the application owns nothing *)
Definition all_gone (s : st) : Prop :=
  d_alive s = false /\ e_alive s = false /\ (forall i, ctx_of s i = None) /\ app s = [].
