(* RFC 9204 read as a specification: what the bytes of an encoder stream (4.3) and of a field
   section (4.5) mean.  Written from the RFC, not from the code; the only numbers taken from the
   implementation are its limits: integers below 2^62 spelled with at most ten bytes (the RFC
   demands 62 bits), names of at most 256 and values of at most 65536 encoded bytes. *)
From Verif Require Import Base QpackIntSpec HuffSpec QpackTabModel QpackTabSpec QpackDynSpec.
Open Scope Z_scope.

Definition field : Type := (list Z * list Z)%type.
(* 4.1.1: [l] begins with an integer with an N-bit prefix of value [v]; [r] follows it *)
Definition an_int (N : Z) (l : list Z) (v : Z) (r : list Z) : Prop :=
  rfc_int N l = Some (v, r) /\ v < 2 ^ 62 /\ zlen l - zlen r <= 10.
(* 4.1.2: [l] begins with a string: a bit H saying whether it is Huffman coded, its length with
   an N-bit prefix, and the bytes; [s] is the string and [r] follows it *)
Definition a_string (N max : Z) (l s r : list Z) : Prop :=
  exists b t raw, l = b :: t /\ an_int N l (zlen raw) (raw ++ r) /\ zlen raw <= max /\
    if Z.testbit b N then huff_represents raw s else s = raw.
Definition a_name (N : Z) := a_string N 256.
Definition a_value := a_string 7 65536.
(* Appendix A *)
Definition static (i : Z) : option field := if i <? 0 then None else nth_error rfc_static_table (Z.to_nat i).

(* ---- the dynamic table, 3.2 ---- *)
Record table := mk_table { t_all : list field;    (* every entry ever inserted, the first one first:
                                                     the position is the absolute index, 3.2.4 *)
                           t_live : list field;   (* those not evicted, the newest first *)
                           t_cap : Z }.
Definition t_start : table := mk_table [] [] 0.
Definition t_insert (t : table) (f : field) : option table :=
  match rfc_insert (t_cap t) (t_live t) f with
  | Some live => Some (mk_table (t_all t ++ [f]) live (t_cap t))
  | None => None
  end.
(* 3.2.5: index 0 is the entry inserted last *)
Definition relative (t : table) (i : Z) : option field := if i <? 0 then None else nth_error (t_live t) (Z.to_nat i).
(* 3.2.4: the entry with absolute index i, if it is still there *)
Definition absolute (t : table) (i : Z) : option field := if i <? 0 then None else relative t (zlen (t_all t) - 1 - i).

(* ---- the encoder stream, 4.3 ---- *)
Inductive einstr :=
| SetCapacity (n : Z)                        (* 4.3.1 *)
| InsertStatic (i : Z) (v : list Z)          (* 4.3.2, T = 1 *)
| InsertDynamic (i : Z) (v : list Z)         (* 4.3.2, T = 0 *)
| InsertLiteral (n v : list Z)               (* 4.3.3 *)
| Duplicate (i : Z).                         (* 4.3.4 *)
Definition an_einstr (l : list Z) (i : einstr) (r : list Z) : Prop :=
  exists b t, l = b :: t /\
  match i with
  | InsertStatic k v => 192 <= b /\ exists m, an_int 6 l k m /\ a_value m v r             (* 11 *)
  | InsertDynamic k v => 128 <= b < 192 /\ exists m, an_int 6 l k m /\ a_value m v r      (* 10 *)
  | InsertLiteral n v => 64 <= b < 128 /\ exists m, a_name 5 l n m /\ a_value m v r       (* 01H *)
  | SetCapacity n => 32 <= b < 64 /\ an_int 5 l n r                                       (* 001 *)
  | Duplicate k => b < 32 /\ an_int 5 l k r                                               (* 000 *)
  end.
(* what an instruction does; None: it is an error.  [max] is the maximum capacity announced *)
Definition carry_out (max : Z) (t : table) (i : einstr) : option table :=
  match i with
  | SetCapacity n => if n <=? max then Some (mk_table (t_all t) (rfc_evict (t_live t) n) n) else None
  | InsertStatic k v => match static k with Some f => t_insert t (fst f, v) | None => None end
  | InsertDynamic k v => match relative t k with Some f => t_insert t (fst f, v) | None => None end
  | InsertLiteral n v => t_insert t (n, v)
  | Duplicate k => match relative t k with Some f => t_insert t f | None => None end
  end.
(* [l] is a sequence of instructions that turns the table [t] into [t'], followed by [r] *)
Inductive instructions (max : Z) : table -> list Z -> table -> list Z -> Prop :=
| in_nil t l : instructions max t l t l
| in_cons t l i r t1 t' l' : an_einstr l i r -> carry_out max t i = Some t1 ->
    instructions max t1 r t' l' -> instructions max t l t' l'.
(* [l] does not begin with a complete instruction *)
Definition unfinished (l : list Z) : Prop := forall i r, ~ an_einstr l i r.
(* whatever follows, [l] does not begin with an instruction that can be carried out *)
Definition no_instruction (max : Z) (t : table) (l : list Z) : Prop :=
  forall x i r, bytes x -> an_einstr (l ++ x) i r -> carry_out max t i = None.

(* ---- field sections, 4.5 ---- *)
(* 4.5.1: [enc] encodes the Required Insert Count [ric] for a receiver that announced the
   capacity [max] and has received [n] insertions *)
Definition required (max n enc ric : Z) : Prop :=
  if ric =? 0 then enc = 0
  else let m := max / 32 in 0 < m /\ 0 < ric /\ enc = ric mod (2 * m) + 1 /\ n - m < ric <= n + m.
(* the prefix: [r] follows it *)
Definition section_prefix (max n : Z) (l : list Z) (ric base : Z) (r : list Z) : Prop :=
  exists enc b t delta, 0 <= ric /\ an_int 8 l enc (b :: t) /\ required max n enc ric /\ an_int 7 (b :: t) delta r /\
    0 <= base /\ base = if Z.testbit b 7 then ric - delta - 1 else ric + delta.
(* what the application is given for a field: name, value, token of the name, never-index flag *)
Definition shown_field (f : field) (never : bool) : qnv :=
  mk_qnv (fst f) (snd f) (lookup_token (fst f)) (if never then 1 else 0).
(* an entry that a section may refer to: 0 <= i < Required Insert Count, 4.5.1 / 2.2.2 *)
Definition entry (dyn : Z -> option field) (ric i : Z) (f : field) : Prop := 0 <= i < ric /\ dyn i = Some f.
(* one field line; [dyn] gives the entries of the dynamic table by absolute index *)
Definition field_line (dyn : Z -> option field) (ric base : Z) (l : list Z) (q : qnv) (r : list Z) : Prop :=
  exists b t, l = b :: t /\
  if 192 <=? b then exists k f, an_int 6 l k r /\ static k = Some f /\ q = shown_field f false                      (* 4.5.2, T = 1 *)
  else if 128 <=? b then exists k f, an_int 6 l k r /\ entry dyn ric (base - 1 - k) f /\ q = shown_field f false    (* 4.5.2, T = 0 *)
  else if 64 <=? b then exists k f m v, an_int 4 l k m /\ a_value m v r /\                                          (* 4.5.4 *)
    (if Z.testbit b 4 then static k = Some f else entry dyn ric (base - 1 - k) f) /\
    q = shown_field (fst f, v) (Z.testbit b 5)
  else if 32 <=? b then exists n m v, a_name 3 l n m /\ a_value m v r /\ q = shown_field (n, v) (Z.testbit b 4)     (* 4.5.6 *)
  else if 16 <=? b then exists k f, an_int 4 l k r /\ entry dyn ric (base + k) f /\ q = shown_field f false         (* 4.5.3 *)
  else exists k f m v, an_int 3 l k m /\ a_value m v r /\ entry dyn ric (base + k) f /\                             (* 4.5.5 *)
    q = shown_field (fst f, v) (Z.testbit b 3).
(* lines followed by [r] *)
Inductive field_lines (dyn : Z -> option field) (ric base : Z) : list Z -> list qnv -> list Z -> Prop :=
| fl_nil l : field_lines dyn ric base l [] l
| fl_cons l q m qs r : field_line dyn ric base l q m -> field_lines dyn ric base m qs r ->
    field_lines dyn ric base l (q :: qs) r.
(* a whole field section, for a receiver with the table [t] *)
Definition field_section (max : Z) (t : table) (l : list Z) (ric : Z) (qs : list qnv) : Prop :=
  exists base m, section_prefix max (zlen (t_all t)) l ric base m /\ ric <= zlen (t_all t) /\
    field_lines (absolute t) ric base m qs [].
