(* Model of the ordered index, lib/nghttp3_ksl.c, a B+ tree whose leaves are linked.  It holds the
   gaps of the range set behind the stream id check and the acknowledgements, and the streams the
   QPACK encoder may block.
   A block of height h is a list of nodes (key, child); a child of a leaf (height 0) is the
   data, of another block a block of height h - 1.  Simplifications: the links between the
   leaves (next, prev, front, back) are the left to right order of the leaves, and a pointer to a
   leaf is its number in that order; memory allocation does not fail.  A failed assert or an access
   outside a block is Abort. *)
From Verif Require Import Base.
Open Scope nat_scope.

(* lib/nghttp3_ksl.h:39-45, with NGHTTP3_KSL_DEGR 16 *)
Definition MAX_NBLK : nat := 31.
Definition MIN_NBLK : nat := 15.
Definition KSL_EINVAL : Z := (-101)%Z.

(* an iterator: the leaf and the index in it *)
Definition iter : Type := nat * nat.

Section Ksl.
Variables (K D : Type) (lt : K -> K -> bool).   (* [lt]: compar *)

Fixpoint child (h : nat) : Type := match h with O => D | S h' => list (K * child h') end.
Definition blk (h : nat) : Type := list (K * child h).

(* the leaves of a block from left to right *)
Fixpoint leaves (h : nat) : blk h -> list (list (K * D)) :=
  match h return blk h -> list (list (K * D)) with
  | O => fun t => [t]
  | S h' => fun t => concat (map (fun nd : K * child (S h') => leaves h' (snd nd)) t)
  end.
Definition nleaves (h : nat) (t : blk h) : nat := length (leaves h t).
(* the leaves before the child i *)
Definition before (h : nat) (t : blk (S h)) (i : nat) : nat := nleaves (S h) (firstn i t).

(* a search function, nghttp3_ksl_search_def, lib/nghttp3_ksl.h:128-152: the first node whose key is
   not ordered before the wanted place *)
Fixpoint search {A : Type} (p : K -> bool) (l : list (K * A)) : nat :=
  match l with [] => O | (k, _) :: r => if p k then S (search p r) else O end.
(* nghttp3_ksl_nth_node(ksl, blk, blk->n - 1)->key *)
Fixpoint lastk {A : Type} (l : list (K * A)) : option K :=
  match l with [] => None | [(k, _)] => Some k | _ :: r => lastk r end.
(* the nodes [n] of them from the index [i] are replaced *)
Definition put {A : Type} (l : list A) (i n : nat) (xs : list A) : list A := firstn i l ++ xs ++ skipn (i + n) l.

(* ksl_split_blk, :141-171 *)
Definition split_blk {A : Type} (c : list A) : outcome (list A * list A) :=
  let rn := length c / 2 in
  let l := firstn (length c - rn) c in
  let r := skipn (length c - rn) c in
  if (length l <? MIN_NBLK) || (length r <? MIN_NBLK) then Abort else Ok (l, r).
(* ksl_split_node, :184-208 *)
Definition split_node {h : nat} (t : blk (S h)) (i : nat) : outcome (blk (S h)) :=
  match nth_error t i with
  | None => Abort
  | Some (_, c) =>
    match split_blk (A := K * child h) c with
    | Ok (l, r) => match lastk (A := child h) l, lastk (A := child h) r with
                   | Some kl, Some kr => Ok (put t i 1 [(kl, l); (kr, r)])
                   | _, _ => Abort
                   end
    | Err e => Err e
    | Abort => Abort
    end
  end.
(* ksl_split_head, :220-255 *)
Definition split_head {h : nat} (t : blk h) : outcome (blk (S h)) :=
  match split_blk t with
  | Ok (l, r) => match lastk l, lastk r with Some kl, Some kr => Ok [(kl, l); (kr, r)] | _, _ => Abort end
  | Err e => Err e
  | Abort => Abort
  end.
(* ksl_insert_node, :263-277 *)
Definition insert_node (t : blk 0) (i : nat) (q : K) (d : D) : outcome (blk 0) :=
  if length t <? MAX_NBLK then Ok (put t i 0 [(q, d)]) else Abort.

(* the branch of nghttp3_ksl_insert that extends the largest key, :319-350 *)
Fixpoint insert_last (h : nat) (q : K) (d : D) : blk h -> outcome (blk h * iter) :=
  match h return blk h -> outcome (blk h * iter) with
  | O => fun t => match insert_node t (length t) q d with Ok t' => Ok (t', (O, length t)) | Err e => Err e | Abort => Abort end
  | S h' => fun t =>
    match nth_error t (length t - 1) with
    | None => Abort
    | Some (_, c) =>
      match (if length (A := K * child h') c =? MAX_NBLK then split_node t (length t - 1) else Ok t) with
      | Ok t1 =>
        match nth_error t1 (length t1 - 1) with
        | None => Abort
        | Some (_, c1) =>
          match insert_last h' q d c1 with
          | Ok (c2, (lf, i)) => Ok (put t1 (length t1 - 1) 1 [(q, c2)], (before h' t1 (length t1 - 1) + lf, i))
          | Err e => Err e
          | Abort => Abort
          end
        end
      | Err e => Err e
      | Abort => Abort
      end
    end
  end.
(* the loop of nghttp3_ksl_insert, :302-370: whether the key was inserted, where, and the block *)
Fixpoint insert_loop (h : nat) (q : K) (d : D) : blk h -> outcome (bool * iter * blk h) :=
  match h return blk h -> outcome (bool * iter * blk h) with
  | O => fun t =>
    let i := search (fun k => lt k q) t in
    match nth_error t i with
    | Some (k, _) => if negb (lt q k) then Ok (false, (O, O), t)
                     else match insert_node t i q d with Ok t' => Ok (true, (O, i), t') | Err e => Err e | Abort => Abort end
    | None => match insert_node t i q d with Ok t' => Ok (true, (O, i), t') | Err e => Err e | Abort => Abort end
    end
  | S h' => fun t =>
    let i := search (fun k => lt k q) t in
    if i =? length t then
      match insert_last (S h') q d t with Ok (t', it) => Ok (true, it, t') | Err e => Err e | Abort => Abort end
    else
      match nth_error t i with
      | None => Abort
      | Some (_, c) =>
        (* the block after a split, the index and the key of the node to go into *)
        let at_node :=
          if length (A := K * child h') c =? MAX_NBLK then
            match split_node t i with
            | Ok t1 =>
              match nth_error t1 i, nth_error t1 (S i) with
              | Some (k1, c1), Some (k2, c2) =>
                if lt k1 q then Ok (put t1 (S i) 1 [(if lt k2 q then q else k2, c2)], S i) else Ok (t1, i)
              | _, _ => Abort
              end
            | Err e => Err e
            | Abort => Abort
            end
          else Ok (t, i) in
        match at_node with
        | Ok (t1, j) =>
          match nth_error t1 j with
          | None => Abort
          | Some (k, c1) =>
            match insert_loop h' q d c1 with
            | Ok (done_, (lf, i'), c2) => Ok (done_, (before h' t1 j + lf, i'), put t1 j 1 [(k, c2)])
            | Err e => Err e
            | Abort => Abort
            end
          end
        | Err e => Err e
        | Abort => Abort
        end
      end
  end.

(* ksl_remove_node, :377-382 *)
Definition remove_node {A : Type} (t : list A) (i : nat) : list A := put t i 1 [].
(* two neighbours i and i + 1 are changed *)
Definition pairwise {A : Type} (t : list (K * list A)) (i : nat) (f : K * list A -> K * list A -> outcome (list (K * list A))) : outcome (list (K * list A)) :=
  match nth_error t i, nth_error t (S i) with
  | Some x, Some y => match f x y with Ok xs => Ok (put t i 2 xs) | Err e => Err e | Abort => Abort end
  | _, _ => Abort
  end.
(* ksl_merge_node, :394-432, where [blk] does not cease to be the head *)
Definition merge {A : Type} (x y : K * list (K * A)) : outcome (list (K * list (K * A))) :=
  let m := snd x ++ snd y in
  if length (snd x) + length (snd y) <? MAX_NBLK then
    match lastk m with Some k => Ok [(k, m)] | None => Abort end
  else Abort.
(* ksl_shift_left, :439-470; [x], [y] are the nodes i - 1 and i *)
Definition shift_left {A : Type} (x y : K * list (K * A)) : outcome (list (K * list (K * A))) :=
  let ln := length (snd x) in
  let rn := length (snd y) in
  let n := (ln + rn + 1) / 2 - ln in
  if (ln <? MAX_NBLK) && (MIN_NBLK <? rn) && (0 <? n) && (ln <=? MAX_NBLK - n) && (MIN_NBLK + n <=? rn) then
    let l := snd x ++ firstn n (snd y) in
    match lastk l with Some k => Ok [(k, l); (fst y, skipn n (snd y))] | None => Abort end
  else Abort.
(* ksl_shift_right, :477-508; [x], [y] are the nodes i and i + 1 *)
Definition shift_right {A : Type} (x y : K * list (K * A)) : outcome (list (K * list (K * A))) :=
  let ln := length (snd x) in
  let rn := length (snd y) in
  let n := (ln + rn + 1) / 2 - rn in
  if (MIN_NBLK <? ln) && (rn <? MAX_NBLK) && (0 <? n) && (MIN_NBLK + n <=? ln) && (rn <=? MAX_NBLK - n) then
    let l := firstn (ln - n) (snd x) in
    match lastk l with Some k => Ok [(k, l); (fst y, skipn (ln - n) (snd x) ++ snd y)] | None => Abort end
  else Abort.

Definition child_n {A : Type} (t : list (K * list A)) (i : nat) : nat := match nth_error t i with Some (_, c) => length c | None => O end.
(* the node [i] to go into gets more than the least number of nodes, :595-627: the block and the index of
   the node.  [head]: the block is the head; a merge of its only two nodes, :421-423, is done before the
   loop (ksl_remove below) and does not happen here, which is part of the theorem: it is Abort *)
Definition make_room {A : Type} (head : bool) (t : list (K * list (K * A))) (i : nat) : outcome (list (K * list (K * A)) * nat) :=
  if MIN_NBLK <? child_n t i then Ok (t, i)
  else if negb (child_n t i =? MIN_NBLK) then Abort
  else if (S i <? length t) && (MIN_NBLK <? child_n t (S i)) then
    match pairwise t i shift_left with Ok t1 => Ok (t1, i) | Err e => Err e | Abort => Abort end
  else if (0 <? i) && (MIN_NBLK <? child_n t (i - 1)) then
    match pairwise t (i - 1) shift_right with Ok t1 => Ok (t1, i) | Err e => Err e | Abort => Abort end
  else if head && (length t =? 2) then Abort
  else if S i <? length t then
    match pairwise t i merge with Ok t1 => Ok (t1, i) | Err e => Err e | Abort => Abort end
  else if negb (0 <? i) then Abort
  else match pairwise t (i - 1) merge with Ok t1 => Ok (t1, i - 1) | Err e => Err e | Abort => Abort end.
(* the loop of nghttp3_ksl_remove, :561-628: whether the key was removed, the place after it, and the
   block *)
Fixpoint remove_loop (h : nat) (head : bool) (q : K) : blk h -> outcome (bool * iter * blk h) :=
  match h return blk h -> outcome (bool * iter * blk h) with
  | O => fun t =>
    let i := search (fun k => lt k q) t in
    match nth_error t i with
    | None => Ok (false, (O, O), t)
    | Some (k, _) => if lt q k then Ok (false, (O, O), t) else Ok (true, (O, i), remove_node t i)
    end
  | S h' => fun t =>
    let i := search (fun k => lt k q) t in
    if i =? length t then Ok (false, (O, O), t)
    else
      match make_room (A := child h') head t i with
      | Ok (t1, j) =>
        match nth_error t1 j with
        | None => Abort
        | Some (k, c) =>
          match remove_loop h' false q c with
          | Ok (found, (lf, i'), c') => Ok (found, (before h' t1 j + lf, i'), put t1 j 1 [(k, c')])
          | Err e => Err e
          | Abort => Abort
          end
        end
      | Err e => Err e
      | Abort => Abort
      end
  end.

(* the descent of nghttp3_ksl_lower_bound_search, :648-681, before it goes on to the next leaf *)
Fixpoint lower (h : nat) (p : K -> bool) : blk h -> outcome iter :=
  match h return blk h -> outcome iter with
  | O => fun t => Ok (O, search p t)
  | S h' => fun t =>
    let i := search p t in
    if i =? length t then
      let ls := leaves (S h') t in Ok (length ls - 1, length (last ls []))
    else
      match nth_error t i with
      | None => Abort
      | Some (_, c) => match lower h' p c with Ok (lf, i') => Ok (before h' t i + lf, i') | Err e => Err e | Abort => Abort end
      end
  end.

(* the loop of nghttp3_ksl_update_key, :692-711 *)
Definition keq (a b : K) : bool := negb (lt a b) && negb (lt b a).
Fixpoint update_loop (h : nat) (old new : K) : blk h -> outcome (blk h) :=
  match h return blk h -> outcome (blk h) with
  | O => fun t =>
    let i := search (fun k => lt k old) t in
    match nth_error t i with
    | None => Abort
    | Some (k, d) => if keq k old then Ok (put t i 1 [(new, d)]) else Abort
    end
  | S h' => fun t =>
    let i := search (fun k => lt k old) t in
    match nth_error t i with
    | None => Abort
    | Some (k, c) =>
      match update_loop h' old new c with
      | Ok c' => Ok (put t i 1 [(if keq k old || lt k new then new else k, c')])
      | Err e => Err e
      | Abort => Abort
      end
    end
  end.

(* remove_node in the leaf number lf *)
Fixpoint remove_at (h : nat) (lf i : nat) : blk h -> blk h :=
  match h return blk h -> blk h with
  | O => fun t => remove_node t i
  | S h' => fun t =>
    (fix go (l : blk (S h')) (n : nat) : blk (S h') :=
       match l with
       | [] => []
       | (k, c) :: r => if n <? nleaves h' c then (k, remove_at h' n i c) :: r else (k, c) :: go r (n - nleaves h' c)
       end) t lf
  end.

(* ---- the index ---- *)
Record ksl := mk_ksl { k_head : option { h : nat & blk h }; k_n : nat }.
(* nghttp3_ksl_init, :61-76 *)
Definition ksl_init : ksl := mk_ksl None 0.
Definition k_leaves (s : ksl) : list (list (K * D)) :=
  match k_head s with None => [] | Some (existT _ h t) => leaves h t end.

(* nghttp3_ksl_end, :776-786: the last leaf, or the null block *)
Definition ksl_end (s : ksl) : iter :=
  match k_leaves s with [] => (O, O) | ls => (length ls - 1, length (last ls [])) end.
(* nghttp3_ksl_begin, :764-774 *)
Definition ksl_begin (s : ksl) : iter := (O, O).
(* blk->n == i && blk->next: on to the next leaf *)
Definition onward (s : ksl) (it : iter) : iter :=
  let '(lf, i) := it in
  match nth_error (k_leaves s) lf with
  | Some l => if (i =? length l) && (S lf <? length (k_leaves s)) then (S lf, O) else (lf, i)
  | None => (lf, i)
  end.

(* nghttp3_ksl_insert, :279-371 *)
Definition ksl_insert (s : ksl) (q : K) (d : D) : outcome (Z * iter * ksl) :=
  let go (h : nat) (t : blk h) :=
    match insert_loop h q d t with
    | Ok (true, it, t') => Ok (0%Z, it, mk_ksl (Some (existT blk h t')) (S (k_n s)))
    | Ok (false, _, t') => let s' := mk_ksl (Some (existT blk h t')) (k_n s) in Ok (KSL_EINVAL, ksl_end s', s')
    | Err e => Err e
    | Abort => Abort
    end in
  match k_head s with
  | None => go O []
  | Some (existT _ h t) =>
    if length t =? MAX_NBLK then match split_head t with Ok t1 => go (S h) t1 | Err e => Err e | Abort => Abort end
    else go h t
  end.
(* nghttp3_ksl_remove, :545-629; None: *it is not assigned, :551-553 *)
Definition ksl_remove (s : ksl) (q : K) : outcome (Z * option iter * ksl) :=
  let go (h : nat) (t : blk h) :=
    match remove_loop h true q t with
    | Ok (true, it, t') => let s' := mk_ksl (Some (existT blk h t')) (k_n s - 1) in Ok (0%Z, Some (onward s' it), s')
    | Ok (false, _, t') => let s' := mk_ksl (Some (existT blk h t')) (k_n s) in Ok (KSL_EINVAL, Some (ksl_end s'), s')
    | Err e => Err e
    | Abort => Abort
    end in
  match k_head s with
  | None => Ok (KSL_EINVAL, None, s)
  | Some (existT _ h t) =>
    match h return blk h -> outcome (Z * option iter * ksl) with
    | O => fun t => go O t
    | S h' => fun t =>
      if (length t =? 2) && (child_n (A := K * child h') t 0 =? MIN_NBLK) && (child_n (A := K * child h') t 1 =? MIN_NBLK) then
        match nth_error t 0, nth_error t 1 with
        | Some x, Some y => match merge (A := child h') x y with Ok [(_, c)] => go h' c | Err e => Err e | _ => Abort end
        | _, _ => Abort
        end
      else go (S h') t
    end t
  end.
(* nghttp3_ksl_remove_hint, :519-543 *)
Definition ksl_remove_hint (s : ksl) (hint : iter) (q : K) : outcome (Z * option iter * ksl) :=
  match k_head s with
  | None => Abort
  | Some (existT _ h t) =>
    match nth_error (leaves h t) (fst hint) with
    | None => Abort
    | Some l =>
      if length l <=? MIN_NBLK then ksl_remove s q
      else if snd hint <? length l then
        let s' := mk_ksl (Some (existT blk h (remove_at h (fst hint) (snd hint) t))) (k_n s - 1) in
        Ok (0%Z, Some (onward s' hint), s')
      else Abort
    end
  end.
(* nghttp3_ksl_lower_bound_search, :636-682; nghttp3_ksl_lower_bound is the case p = (lt . key) *)
Definition ksl_lower_bound (s : ksl) (p : K -> bool) : outcome iter :=
  match k_head s with
  | None => Ok (O, O)
  | Some (existT _ h t) => match lower h p t with Ok it => Ok (onward s it) | Err e => Err e | Abort => Abort end
  end.
(* nghttp3_ksl_update_key, :684-712 *)
Definition ksl_update_key (s : ksl) (old new : K) : outcome ksl :=
  match k_head s with
  | None => Abort
  | Some (existT _ h t) => match update_loop h old new t with Ok t' => Ok (mk_ksl (Some (existT blk h t')) (k_n s)) | Err e => Err e | Abort => Abort end
  end.
(* nghttp3_ksl_len, :714 *)
Definition ksl_len (s : ksl) : nat := k_n s.
(* nghttp3_ksl_clear, :716-729 *)
Definition ksl_clear (s : ksl) : ksl := mk_ksl None 0.
(* nghttp3_ksl_it_end, lib/nghttp3_ksl.h:345-346; the null block is empty and has no next *)
Definition it_end (s : ksl) (it : iter) : bool :=
  match nth_error (k_leaves s) (fst it) with
  | Some l => (length l =? snd it) && negb (S (fst it) <? length (k_leaves s))
  | None => true
  end.
(* nghttp3_ksl_it_key and nghttp3_ksl_it_get *)
Definition it_node (s : ksl) (it : iter) : outcome (K * D) :=
  match nth_error (k_leaves s) (fst it) with
  | Some l => match nth_error l (snd it) with Some x => Ok x | None => Abort end
  | None => Abort
  end.
(* nghttp3_ksl_it_next, lib/nghttp3_ksl.h:329-332 *)
Definition it_next (s : ksl) (it : iter) : iter := onward s (fst it, S (snd it)).
(* nghttp3_ksl_it_begin, :806-808 *)
Definition it_begin (s : ksl) (it : iter) : bool := (snd it =? 0) && (fst it =? 0).
(* nghttp3_ksl_it_prev, :795-804 *)
Definition it_prev (s : ksl) (it : iter) : outcome iter :=
  if it_begin s it then Abort
  else if snd it =? 0 then
    match nth_error (k_leaves s) (fst it - 1) with Some l => Ok (fst it - 1, length l - 1) | None => Abort end
  else Ok (fst it, snd it - 1).
End Ksl.
