(* The order in which the header sections of a connection are given to the QPACK encoder. *)
From Verif Require Import Base ConvModel QpackTabModel QpackEncModel QpackEncSpec TxModel ConnModel ConnHist SendSpec E2eSpec.
Open Scope Z_scope.

(* a header section: its stream, its number on the stream (the first one is 0), its fields *)
Definition section : Type := Z * nat * list ConvModel.nv.
(* the k-th header section submitted on a stream *)
Definition nth_section (K : kenv) (id : Z) (k : nat) (h : list kcall) : list ConvModel.nv := nth k (sections (submitted (slog K id h))) [].
(* the sections that the call [x], made after [pre], gave to the encoder: only nghttp3_conn_writev_stream does *)
Definition encodings1 (K : kenv) (pre : list kcall) (x : kcall) : list section :=
  match ConnHist.c_op x with
  | OWritev _ => concat (map (fun id => map (fun k => (id, k, nth_section K id k pre)) (seq (made (after K pre) id) (made (c_post x) id - made (after K pre) id)))
                          (map fst (k_str (after K pre))))
  | _ => []
  end.
Fixpoint encodings_from (K : kenv) (pre h : list kcall) : list section :=
  match h with [] => [] | x :: h' => encodings1 K pre x ++ encodings_from K (pre ++ [x]) h' end.
Definition encodings (K : kenv) (h : list kcall) : list section := encodings_from K [] h.
Definition of_stream (id : Z) (l : list section) : list section := filter (fun e => fst (fst e) =? id) l.
(* the sections number 0 .. n-1 of a stream *)
Definition first_sections (K : kenv) (id : Z) (n : nat) (h : list kcall) : list section := map (fun k => (id, k, nth_section K id k h)) (seq 0 n).

(* what the encoder made of a section, and the instructions that came with it *)
Definition answer_to (K : kenv) (e : section) : outcome (list Z * list Z * list Z) := te_enc (ke_tx K (fst (fst e))) (snd (fst e)) (snd e).
Definition instr_of (K : kenv) (e : section) : list Z := match answer_to K e with Ok (_, _, b) => b | _ => [] end.

(* The encoder history [tr] is the one behind the connection: its header sections are those of the connection, in the same
   order, with the same results. *)
Definition encoded (x : eop * eres) : bool := match snd x with ErSection _ _ _ => true | _ => false end.
Definition same_section (K : kenv) (e : section) (x : eop * eres) : Prop :=
  exists p r b ric, answer_to K e = Ok (p, r, b) /\ x = (EEncode (fst (fst e)) (map same_nv (snd e)), ErSection (p ++ r) b ric).
Definition follows (tr : list (eop * eres)) (K : kenv) (h : list kcall) : Prop := Forall2 (same_section K) (encodings K h) (filter encoded tr).
