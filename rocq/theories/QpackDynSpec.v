(* RFC 9204 section 3.2: the dynamic table as a list of (name, value), newest first. *)
From Verif Require Import Base QpackTabModel.

(* section 3.2.1: size of an entry and of a table *)
Definition fld_size (f : list Z * list Z) : Z := zlen (fst f) + zlen (snd f) + 32.
Fixpoint tab_size (t : list (list Z * list Z)) : Z :=
  match t with [] => 0 | f :: t' => fld_size f + tab_size t' end.

(* section 3.2.2: entries are evicted from the end of the table until it fits [cap]: what
   remains is the longest prefix of size at most [cap] *)
Fixpoint rfc_evict (t : list (list Z * list Z)) (cap : Z) : list (list Z * list Z) :=
  match t with
  | [] => []
  | f :: t' => if fld_size f <=? cap then f :: rfc_evict t' (cap - fld_size f) else []
  end.
(* an entry larger than the capacity cannot be inserted *)
Definition rfc_insert (cap : Z) (t : list (list Z * list Z)) (f : list Z * list Z) : option (list (list Z * list Z)) :=
  if fld_size f <=? cap then Some (f :: rfc_evict t (cap - fld_size f)) else None.

(* the table of the model seen this way *)
Definition kv (e : entry) : list Z * list Z := (e_name e, e_value e).
Definition contents (c : ctx) : list (list Z * list Z) := map kv (dtable c).
