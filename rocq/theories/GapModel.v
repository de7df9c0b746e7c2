(* Model of the gap tracker and the stream identifier tracker: lib/nghttp3_range.c,
   lib/nghttp3_gaptr.c, lib/nghttp3_idtr.c.  The ordered map of lib/nghttp3_ksl.c is here a list in key
   order; an iterator is a split of the list into what lies before it and what it and its successors
   are.  Memory exhaustion is not modelled *)
From Verif Require Import Base.
Open Scope Z_scope.

Definition range := (Z * Z)%type.   (* begin, end *)
Definition u64 (x : Z) : Z := x mod 2 ^ 64.
(* lib/nghttp3_range.c:34-45 nghttp3_range_intersect *)
Definition range_intersect (a b : range) : range :=
  let begin := Z.max (fst a) (fst b) in
  let end_ := Z.min (snd a) (snd b) in
  if begin <? end_ then (begin, end_) else (0, 0).
(* lib/nghttp3_range.c:47 nghttp3_range_len *)
Definition range_len (r : range) : Z := u64 (snd r - fst r).
(* lib/nghttp3_range.c:49-51 nghttp3_range_eq *)
Definition range_eq (a b : range) : bool := (fst a =? fst b) && (snd a =? snd b).
(* lib/nghttp3_range.c:53-60 nghttp3_range_cut *)
Definition range_cut (a b : range) : range * range := ((fst a, fst b), (snd b, snd a)).
(* lib/nghttp3_ksl.c:810-814 nghttp3_ksl_range_compar *)
Definition range_compar (a b : range) : bool := fst a <? fst b.
(* lib/nghttp3_ksl.c:823-828 nghttp3_ksl_range_exclusive_compar *)
Definition range_exclusive_compar (a b : range) : bool :=
  (fst a <? fst b) && negb (Z.max (fst a) (fst b) <? Z.min (snd a) (snd b)).

(* the list view of lib/nghttp3_ksl.c *)
(* :133-145 of lib/nghttp3_ksl.h, nghttp3_ksl_search_def, and lib/nghttp3_ksl.c:636-682
   nghttp3_ksl_lower_bound_search: the position of the first key not before [k] *)
Fixpoint kl_split (compar : range -> range -> bool) (k : range) (l : list range) : list range * list range :=
  match l with
  | [] => ([], [])
  | x :: l' => if compar x k then let '(a, b) := kl_split compar k l' in (x :: a, b) else ([], l)
  end.
(* lib/nghttp3_ksl.c:279-370 nghttp3_ksl_insert: what is before the new key, and after it *)
Definition kl_insert (k : range) (l : list range) : outcome (list range * list range) :=
  let '(a, b) := kl_split range_compar k l in
  match b with
  | x :: _ => if negb (range_compar k x) then Err ERR_INVALID_ARGUMENT else Ok (a, b)
  | [] => Ok (a, b)
  end.

Definition gaptr := list range.
(* lib/nghttp3_gaptr.c:31-36 nghttp3_gaptr_init *)
Definition gaptr_init : gaptr := [].
(* lib/nghttp3_gaptr.c:38-44 gaptr_gap_init *)
Definition gap_init (g : gaptr) : gaptr := match g with [] => [(0, u64_max)] | _ => g end.
(* lib/nghttp3_gaptr.c:73-104, the loop of nghttp3_gaptr_push; [before]: what the iterator has passed.
   update_key changes the key the iterator is at, which is asserted to be the old key
   (lib/nghttp3_ksl.c:684-712).  [fuel]: no more turns than keys *)
Fixpoint push_loop (fuel : nat) (q : range) (before after : list range) : outcome gaptr :=
  match fuel with
  | O => Ok (before ++ after)
  | S f =>
    match after with
    | [] => Ok before
    | k :: rest =>
      let m := range_intersect q k in
      if range_len m =? 0 then Ok (before ++ after)
      else if range_eq k m then push_loop f q before rest
      else
        let '(l, r) := range_cut k m in
        if negb (range_len l =? 0) then
          if negb (range_len r =? 0) then
            match kl_insert r (before ++ l :: rest) with
            | Ok (a, b) => push_loop f q (a ++ [r]) b
            | Err e => Err e
            | Abort => Abort
            end
          else push_loop f q (before ++ [l]) rest
        else if negb (range_len r =? 0) then push_loop f q (before ++ [r]) rest
        else push_loop f q (before ++ [k]) rest
    end
  end.
(* lib/nghttp3_gaptr.c:54-105 nghttp3_gaptr_push *)
Definition gaptr_push (g : gaptr) (offset datalen : Z) : outcome gaptr :=
  let q := (offset, u64 (offset + datalen)) in
  let g := gap_init g in
  let '(a, b) := kl_split range_exclusive_compar q g in
  push_loop (S (length b)) q a b.
(* lib/nghttp3_gaptr.c:107-117 nghttp3_gaptr_first_gap_offset *)
Definition first_gap_offset (g : gaptr) : Z := match g with [] => 0 | k :: _ => fst k end.
(* lib/nghttp3_gaptr.c:119-138 nghttp3_gaptr_get_first_gap_after *)
Definition first_gap_after (g : gaptr) (offset : Z) : outcome range :=
  match g with
  | [] => Ok (0, u64_max)
  | _ =>
    match snd (kl_split range_exclusive_compar (offset, u64 (offset + 1)) g) with
    | [] => Abort
    | k :: _ => Ok k
    end
  end.
(* lib/nghttp3_gaptr.c:140-161 nghttp3_gaptr_is_pushed *)
Definition is_pushed (g : gaptr) (offset datalen : Z) : outcome bool :=
  let q := (offset, u64 (offset + datalen)) in
  match g with
  | [] => Ok false
  | _ =>
    match snd (kl_split range_exclusive_compar q g) with
    | [] => Abort
    | k :: _ => Ok (range_len (range_intersect q k) =? 0)
    end
  end.
(* lib/nghttp3_gaptr.c:163-178 nghttp3_gaptr_drop_first_gap *)
Definition drop_first_gap (g : gaptr) : gaptr := tl g.

(* lib/nghttp3_idtr.c:45-47 id_from_stream_id *)
Definition id_from_stream_id (stream_id : Z) : Z := u64 (Z.shiftr stream_id 2).
(* lib/nghttp3_idtr.c:49-59 nghttp3_idtr_open: the result code and the tracker *)
Definition idtr_open (g : gaptr) (stream_id : Z) : outcome (Z * gaptr) :=
  let q := id_from_stream_id stream_id in
  match is_pushed g q 1 with
  | Ok true => Ok (ERR_STREAM_IN_USE, g)
  | Ok false => match gaptr_push g q 1 with Ok g' => Ok (0, g') | Err e => Ok (e, g) | Abort => Abort end
  | Err e => Err e
  | Abort => Abort
  end.
(* lib/nghttp3_idtr.c:61-67 nghttp3_idtr_is_open *)
Definition idtr_is_open (g : gaptr) (stream_id : Z) : outcome bool := is_pushed g (id_from_stream_id stream_id) 1.
(* lib/nghttp3_conn.c:367-380 conn_bidi_idtr_open *)
Definition conn_bidi_idtr_open (g : gaptr) (stream_id : Z) : outcome (Z * gaptr) :=
  match idtr_open g stream_id with
  | Ok (rv, g') =>
    if negb (rv =? 0) then Ok (rv, g')
    else Ok (0, if 32 <? zlen g' then drop_first_gap g' else g')
  | Err e => Err e
  | Abort => Abort
  end.

(* histories *)
(* a sequence of calls, with the results *)
Fixpoint run_calls {A} (call : gaptr -> A -> outcome (Z * gaptr)) (g : gaptr) (l : list A) : outcome (list Z * gaptr) :=
  match l with
  | [] => Ok ([], g)
  | x :: l' =>
    match call g x with
    | Ok (rv, g1) => match run_calls call g1 l' with Ok (rvs, g2) => Ok (rv :: rvs, g2) | Err e => Err e | Abort => Abort end
    | Err e => Err e
    | Abort => Abort
    end
  end.
Definition push_call (g : gaptr) (x : Z * Z) : outcome (Z * gaptr) :=
  match gaptr_push g (fst x) (snd x) with Ok g' => Ok (0, g') | Err e => Ok (e, g) | Abort => Abort end.
