(* GENERATED by tools/gen_huffpaths.py; proof data, re-checked in HuffProofs.v. *)
From Coq Require Import List.
Import ListNotations.
Definition huff_paths : list (list bool) :=
 [ [];
   [false];
   [false;false];
   [false;false;false];
   [false;false;false;false];
   [false;false;false;true];
   [false;false;true];
   [false;false;true;false];
   [false;false;true;true];
   [false;true];
   [false;true;false];
   [false;true;false;false];
   [false;true;false;true];
   [false;true;false;true;false];
   [false;true;false;true;true];
   [false;true;true];
   [false;true;true;false];
   [false;true;true;false;false];
   [false;true;true;false;true];
   [false;true;true;true];
   [false;true;true;true;false];
   [false;true;true;true;true];
   [true];
   [true;false];
   [true;false;false];
   [true;false;false;false];
   [true;false;false;false;false];
   [true;false;false;false;true];
   [true;false;false;true];
   [true;false;false;true;false];
   [true;false;false;true;true];
   [true;false;true];
   [true;false;true;false];
   [true;false;true;false;false];
   [true;false;true;false;true];
   [true;false;true;true];
   [true;false;true;true;false];
   [true;false;true;true;true];
   [true;false;true;true;true;false];
   [true;false;true;true;true;true];
   [true;true];
   [true;true;false];
   [true;true;false;false];
   [true;true;false;false;false];
   [true;true;false;false;false;false];
   [true;true;false;false;false;true];
   [true;true;false;false;true];
   [true;true;false;false;true;false];
   [true;true;false;false;true;true];
   [true;true;false;true];
   [true;true;false;true;false];
   [true;true;false;true;false;false];
   [true;true;false;true;false;true];
   [true;true;false;true;true];
   [true;true;false;true;true;false];
   [true;true;false;true;true;true];
   [true;true;true];
   [true;true;true;false];
   [true;true;true;false;false];
   [true;true;true;false;false;false];
   [true;true;true;false;false;true];
   [true;true;true;false;true];
   [true;true;true;false;true;false];
   [true;true;true;false;true;true];
   [true;true;true;true];
   [true;true;true;true;false];
   [true;true;true;true;false;false];
   [true;true;true;true;false;true];
   [true;true;true;true;true];
   [true;true;true;true;true;false];
   [true;true;true;true;true;false;false];
   [true;true;true;true;true;false;true];
   [true;true;true;true;true;true];
   [true;true;true;true;true;true;false];
   [true;true;true;true;true;true;true];
   [true;true;true;true;true;true;true;false];
   [true;true;true;true;true;true;true;false;false];
   [true;true;true;true;true;true;true;false;true];
   [true;true;true;true;true;true;true;true];
   [true;true;true;true;true;true;true;true;false];
   [true;true;true;true;true;true;true;true;false;true];
   [true;true;true;true;true;true;true;true;true];
   [true;true;true;true;true;true;true;true;true;false];
   [true;true;true;true;true;true;true;true;true;false;true];
   [true;true;true;true;true;true;true;true;true;true];
   [true;true;true;true;true;true;true;true;true;true;false];
   [true;true;true;true;true;true;true;true;true;true;false;false];
   [true;true;true;true;true;true;true;true;true;true;false;true];
   [true;true;true;true;true;true;true;true;true;true;true];
   [true;true;true;true;true;true;true;true;true;true;true;false];
   [true;true;true;true;true;true;true;true;true;true;true;true];
   [true;true;true;true;true;true;true;true;true;true;true;true;false];
   [true;true;true;true;true;true;true;true;true;true;true;true;true];
   [true;true;true;true;true;true;true;true;true;true;true;true;true;false];
   [true;true;true;true;true;true;true;true;true;true;true;true;true;true];
   [true;true;true;true;true;true;true;true;true;true;true;true;true;true;true];
   [true;true;true;true;true;true;true;true;true;true;true;true;true;true;true;false];
   [true;true;true;true;true;true;true;true;true;true;true;true;true;true;true;false;false];
   [true;true;true;true;true;true;true;true;true;true;true;true;true;true;true;false;false;false];
   [true;true;true;true;true;true;true;true;true;true;true;true;true;true;true;false;false;true];
   [true;true;true;true;true;true;true;true;true;true;true;true;true;true;true;false;false;true;true];
   [true;true;true;true;true;true;true;true;true;true;true;true;true;true;true;false;true];
   [true;true;true;true;true;true;true;true;true;true;true;true;true;true;true;false;true;false];
   [true;true;true;true;true;true;true;true;true;true;true;true;true;true;true;false;true;false;false];
   [true;true;true;true;true;true;true;true;true;true;true;true;true;true;true;false;true;false;true];
   [true;true;true;true;true;true;true;true;true;true;true;true;true;true;true;false;true;true];
   [true;true;true;true;true;true;true;true;true;true;true;true;true;true;true;false;true;true;false];
   [true;true;true;true;true;true;true;true;true;true;true;true;true;true;true;false;true;true;true];
   [true;true;true;true;true;true;true;true;true;true;true;true;true;true;true;false;true;true;true;false];
   [true;true;true;true;true;true;true;true;true;true;true;true;true;true;true;false;true;true;true;true];
   [true;true;true;true;true;true;true;true;true;true;true;true;true;true;true;true];
   [true;true;true;true;true;true;true;true;true;true;true;true;true;true;true;true;false];
   [true;true;true;true;true;true;true;true;true;true;true;true;true;true;true;true;false;false];
   [true;true;true;true;true;true;true;true;true;true;true;true;true;true;true;true;false;false;false];
   [true;true;true;true;true;true;true;true;true;true;true;true;true;true;true;true;false;false;false;false];
   [true;true;true;true;true;true;true;true;true;true;true;true;true;true;true;true;false;false;false;true];
   [true;true;true;true;true;true;true;true;true;true;true;true;true;true;true;true;false;false;true];
   [true;true;true;true;true;true;true;true;true;true;true;true;true;true;true;true;false;false;true;false];
   [true;true;true;true;true;true;true;true;true;true;true;true;true;true;true;true;false;false;true;true];
   [true;true;true;true;true;true;true;true;true;true;true;true;true;true;true;true;false;true];
   [true;true;true;true;true;true;true;true;true;true;true;true;true;true;true;true;false;true;false];
   [true;true;true;true;true;true;true;true;true;true;true;true;true;true;true;true;false;true;false;false];
   [true;true;true;true;true;true;true;true;true;true;true;true;true;true;true;true;false;true;false;false;true];
   [true;true;true;true;true;true;true;true;true;true;true;true;true;true;true;true;false;true;false;true];
   [true;true;true;true;true;true;true;true;true;true;true;true;true;true;true;true;false;true;false;true;false];
   [true;true;true;true;true;true;true;true;true;true;true;true;true;true;true;true;false;true;false;true;true];
   [true;true;true;true;true;true;true;true;true;true;true;true;true;true;true;true;false;true;true];
   [true;true;true;true;true;true;true;true;true;true;true;true;true;true;true;true;false;true;true;false];
   [true;true;true;true;true;true;true;true;true;true;true;true;true;true;true;true;false;true;true;false;false];
   [true;true;true;true;true;true;true;true;true;true;true;true;true;true;true;true;false;true;true;false;true];
   [true;true;true;true;true;true;true;true;true;true;true;true;true;true;true;true;false;true;true;true];
   [true;true;true;true;true;true;true;true;true;true;true;true;true;true;true;true;false;true;true;true;false];
   [true;true;true;true;true;true;true;true;true;true;true;true;true;true;true;true;false;true;true;true;true];
   [true;true;true;true;true;true;true;true;true;true;true;true;true;true;true;true;true];
   [true;true;true;true;true;true;true;true;true;true;true;true;true;true;true;true;true;false];
   [true;true;true;true;true;true;true;true;true;true;true;true;true;true;true;true;true;false;false];
   [true;true;true;true;true;true;true;true;true;true;true;true;true;true;true;true;true;false;false;false];
   [true;true;true;true;true;true;true;true;true;true;true;true;true;true;true;true;true;false;false;false;false];
   [true;true;true;true;true;true;true;true;true;true;true;true;true;true;true;true;true;false;false;false;true];
   [true;true;true;true;true;true;true;true;true;true;true;true;true;true;true;true;true;false;false;true];
   [true;true;true;true;true;true;true;true;true;true;true;true;true;true;true;true;true;false;false;true;false];
   [true;true;true;true;true;true;true;true;true;true;true;true;true;true;true;true;true;false;false;true;true];
   [true;true;true;true;true;true;true;true;true;true;true;true;true;true;true;true;true;false;true];
   [true;true;true;true;true;true;true;true;true;true;true;true;true;true;true;true;true;false;true;false];
   [true;true;true;true;true;true;true;true;true;true;true;true;true;true;true;true;true;false;true;false;false];
   [true;true;true;true;true;true;true;true;true;true;true;true;true;true;true;true;true;false;true;false;true];
   [true;true;true;true;true;true;true;true;true;true;true;true;true;true;true;true;true;false;true;true];
   [true;true;true;true;true;true;true;true;true;true;true;true;true;true;true;true;true;false;true;true;false];
   [true;true;true;true;true;true;true;true;true;true;true;true;true;true;true;true;true;false;true;true;false;false];
   [true;true;true;true;true;true;true;true;true;true;true;true;true;true;true;true;true;false;true;true;false;true];
   [true;true;true;true;true;true;true;true;true;true;true;true;true;true;true;true;true;false;true;true;true];
   [true;true;true;true;true;true;true;true;true;true;true;true;true;true;true;true;true;false;true;true;true;false];
   [true;true;true;true;true;true;true;true;true;true;true;true;true;true;true;true;true;false;true;true;true;true];
   [true;true;true;true;true;true;true;true;true;true;true;true;true;true;true;true;true;true];
   [true;true;true;true;true;true;true;true;true;true;true;true;true;true;true;true;true;true;false];
   [true;true;true;true;true;true;true;true;true;true;true;true;true;true;true;true;true;true;false;false];
   [true;true;true;true;true;true;true;true;true;true;true;true;true;true;true;true;true;true;false;false;false];
   [true;true;true;true;true;true;true;true;true;true;true;true;true;true;true;true;true;true;false;false;false;false];
   [true;true;true;true;true;true;true;true;true;true;true;true;true;true;true;true;true;true;false;false;false;true];
   [true;true;true;true;true;true;true;true;true;true;true;true;true;true;true;true;true;true;false;false;true];
   [true;true;true;true;true;true;true;true;true;true;true;true;true;true;true;true;true;true;false;false;true;false];
   [true;true;true;true;true;true;true;true;true;true;true;true;true;true;true;true;true;true;false;false;true;true];
   [true;true;true;true;true;true;true;true;true;true;true;true;true;true;true;true;true;true;false;true];
   [true;true;true;true;true;true;true;true;true;true;true;true;true;true;true;true;true;true;false;true;false];
   [true;true;true;true;true;true;true;true;true;true;true;true;true;true;true;true;true;true;false;true;false;false];
   [true;true;true;true;true;true;true;true;true;true;true;true;true;true;true;true;true;true;false;true;false;true];
   [true;true;true;true;true;true;true;true;true;true;true;true;true;true;true;true;true;true;false;true;true];
   [true;true;true;true;true;true;true;true;true;true;true;true;true;true;true;true;true;true;false;true;true;false];
   [true;true;true;true;true;true;true;true;true;true;true;true;true;true;true;true;true;true;false;true;true;true];
   [true;true;true;true;true;true;true;true;true;true;true;true;true;true;true;true;true;true;true];
   [true;true;true;true;true;true;true;true;true;true;true;true;true;true;true;true;true;true;true;false];
   [true;true;true;true;true;true;true;true;true;true;true;true;true;true;true;true;true;true;true;false;false];
   [true;true;true;true;true;true;true;true;true;true;true;true;true;true;true;true;true;true;true;false;false;false];
   [true;true;true;true;true;true;true;true;true;true;true;true;true;true;true;true;true;true;true;false;false;true];
   [true;true;true;true;true;true;true;true;true;true;true;true;true;true;true;true;true;true;true;false;true];
   [true;true;true;true;true;true;true;true;true;true;true;true;true;true;true;true;true;true;true;false;true;false];
   [true;true;true;true;true;true;true;true;true;true;true;true;true;true;true;true;true;true;true;false;true;false;true];
   [true;true;true;true;true;true;true;true;true;true;true;true;true;true;true;true;true;true;true;false;true;true];
   [true;true;true;true;true;true;true;true;true;true;true;true;true;true;true;true;true;true;true;false;true;true;false];
   [true;true;true;true;true;true;true;true;true;true;true;true;true;true;true;true;true;true;true;false;true;true;true];
   [true;true;true;true;true;true;true;true;true;true;true;true;true;true;true;true;true;true;true;true];
   [true;true;true;true;true;true;true;true;true;true;true;true;true;true;true;true;true;true;true;true;false];
   [true;true;true;true;true;true;true;true;true;true;true;true;true;true;true;true;true;true;true;true;false;false];
   [true;true;true;true;true;true;true;true;true;true;true;true;true;true;true;true;true;true;true;true;false;false;false];
   [true;true;true;true;true;true;true;true;true;true;true;true;true;true;true;true;true;true;true;true;false;false;true];
   [true;true;true;true;true;true;true;true;true;true;true;true;true;true;true;true;true;true;true;true;false;true];
   [true;true;true;true;true;true;true;true;true;true;true;true;true;true;true;true;true;true;true;true;false;true;false];
   [true;true;true;true;true;true;true;true;true;true;true;true;true;true;true;true;true;true;true;true;false;true;true];
   [true;true;true;true;true;true;true;true;true;true;true;true;true;true;true;true;true;true;true;true;false;true;true;false];
   [true;true;true;true;true;true;true;true;true;true;true;true;true;true;true;true;true;true;true;true;false;true;true;true];
   [true;true;true;true;true;true;true;true;true;true;true;true;true;true;true;true;true;true;true;true;true];
   [true;true;true;true;true;true;true;true;true;true;true;true;true;true;true;true;true;true;true;true;true;false];
   [true;true;true;true;true;true;true;true;true;true;true;true;true;true;true;true;true;true;true;true;true;false;false];
   [true;true;true;true;true;true;true;true;true;true;true;true;true;true;true;true;true;true;true;true;true;false;false;false];
   [true;true;true;true;true;true;true;true;true;true;true;true;true;true;true;true;true;true;true;true;true;false;false;false;false];
   [true;true;true;true;true;true;true;true;true;true;true;true;true;true;true;true;true;true;true;true;true;false;false;false;true];
   [true;true;true;true;true;true;true;true;true;true;true;true;true;true;true;true;true;true;true;true;true;false;false;true];
   [true;true;true;true;true;true;true;true;true;true;true;true;true;true;true;true;true;true;true;true;true;false;false;true;false];
   [true;true;true;true;true;true;true;true;true;true;true;true;true;true;true;true;true;true;true;true;true;false;false;true;true];
   [true;true;true;true;true;true;true;true;true;true;true;true;true;true;true;true;true;true;true;true;true;false;true];
   [true;true;true;true;true;true;true;true;true;true;true;true;true;true;true;true;true;true;true;true;true;false;true;false];
   [true;true;true;true;true;true;true;true;true;true;true;true;true;true;true;true;true;true;true;true;true;false;true;false;false];
   [true;true;true;true;true;true;true;true;true;true;true;true;true;true;true;true;true;true;true;true;true;false;true;false;true];
   [true;true;true;true;true;true;true;true;true;true;true;true;true;true;true;true;true;true;true;true;true;false;true;true];
   [true;true;true;true;true;true;true;true;true;true;true;true;true;true;true;true;true;true;true;true;true;false;true;true;false];
   [true;true;true;true;true;true;true;true;true;true;true;true;true;true;true;true;true;true;true;true;true;false;true;true;true];
   [true;true;true;true;true;true;true;true;true;true;true;true;true;true;true;true;true;true;true;true;true;false;true;true;true;true];
   [true;true;true;true;true;true;true;true;true;true;true;true;true;true;true;true;true;true;true;true;true;true];
   [true;true;true;true;true;true;true;true;true;true;true;true;true;true;true;true;true;true;true;true;true;true;false];
   [true;true;true;true;true;true;true;true;true;true;true;true;true;true;true;true;true;true;true;true;true;true;false;false];
   [true;true;true;true;true;true;true;true;true;true;true;true;true;true;true;true;true;true;true;true;true;true;false;false;false];
   [true;true;true;true;true;true;true;true;true;true;true;true;true;true;true;true;true;true;true;true;true;true;false;false;false;false];
   [true;true;true;true;true;true;true;true;true;true;true;true;true;true;true;true;true;true;true;true;true;true;false;false;false;true];
   [true;true;true;true;true;true;true;true;true;true;true;true;true;true;true;true;true;true;true;true;true;true;false;false;true];
   [true;true;true;true;true;true;true;true;true;true;true;true;true;true;true;true;true;true;true;true;true;true;false;false;true;false];
   [true;true;true;true;true;true;true;true;true;true;true;true;true;true;true;true;true;true;true;true;true;true;false;false;true;true];
   [true;true;true;true;true;true;true;true;true;true;true;true;true;true;true;true;true;true;true;true;true;true;false;true];
   [true;true;true;true;true;true;true;true;true;true;true;true;true;true;true;true;true;true;true;true;true;true;false;true;false];
   [true;true;true;true;true;true;true;true;true;true;true;true;true;true;true;true;true;true;true;true;true;true;false;true;false;false];
   [true;true;true;true;true;true;true;true;true;true;true;true;true;true;true;true;true;true;true;true;true;true;false;true;false;true];
   [true;true;true;true;true;true;true;true;true;true;true;true;true;true;true;true;true;true;true;true;true;true;false;true;true];
   [true;true;true;true;true;true;true;true;true;true;true;true;true;true;true;true;true;true;true;true;true;true;false;true;true;false];
   [true;true;true;true;true;true;true;true;true;true;true;true;true;true;true;true;true;true;true;true;true;true;false;true;true;true];
   [true;true;true;true;true;true;true;true;true;true;true;true;true;true;true;true;true;true;true;true;true;true;true];
   [true;true;true;true;true;true;true;true;true;true;true;true;true;true;true;true;true;true;true;true;true;true;true;false];
   [true;true;true;true;true;true;true;true;true;true;true;true;true;true;true;true;true;true;true;true;true;true;true;false;false];
   [true;true;true;true;true;true;true;true;true;true;true;true;true;true;true;true;true;true;true;true;true;true;true;false;false;false];
   [true;true;true;true;true;true;true;true;true;true;true;true;true;true;true;true;true;true;true;true;true;true;true;false;false;false;true];
   [true;true;true;true;true;true;true;true;true;true;true;true;true;true;true;true;true;true;true;true;true;true;true;false;false;true];
   [true;true;true;true;true;true;true;true;true;true;true;true;true;true;true;true;true;true;true;true;true;true;true;false;false;true;false];
   [true;true;true;true;true;true;true;true;true;true;true;true;true;true;true;true;true;true;true;true;true;true;true;false;false;true;true];
   [true;true;true;true;true;true;true;true;true;true;true;true;true;true;true;true;true;true;true;true;true;true;true;false;true];
   [true;true;true;true;true;true;true;true;true;true;true;true;true;true;true;true;true;true;true;true;true;true;true;false;true;false];
   [true;true;true;true;true;true;true;true;true;true;true;true;true;true;true;true;true;true;true;true;true;true;true;false;true;false;false];
   [true;true;true;true;true;true;true;true;true;true;true;true;true;true;true;true;true;true;true;true;true;true;true;false;true;false;true];
   [true;true;true;true;true;true;true;true;true;true;true;true;true;true;true;true;true;true;true;true;true;true;true;false;true;true];
   [true;true;true;true;true;true;true;true;true;true;true;true;true;true;true;true;true;true;true;true;true;true;true;false;true;true;false];
   [true;true;true;true;true;true;true;true;true;true;true;true;true;true;true;true;true;true;true;true;true;true;true;false;true;true;true];
   [true;true;true;true;true;true;true;true;true;true;true;true;true;true;true;true;true;true;true;true;true;true;true;true];
   [true;true;true;true;true;true;true;true;true;true;true;true;true;true;true;true;true;true;true;true;true;true;true;true;false];
   [true;true;true;true;true;true;true;true;true;true;true;true;true;true;true;true;true;true;true;true;true;true;true;true;false;false];
   [true;true;true;true;true;true;true;true;true;true;true;true;true;true;true;true;true;true;true;true;true;true;true;true;false;false;false];
   [true;true;true;true;true;true;true;true;true;true;true;true;true;true;true;true;true;true;true;true;true;true;true;true;false;false;true];
   [true;true;true;true;true;true;true;true;true;true;true;true;true;true;true;true;true;true;true;true;true;true;true;true;false;true];
   [true;true;true;true;true;true;true;true;true;true;true;true;true;true;true;true;true;true;true;true;true;true;true;true;false;true;false];
   [true;true;true;true;true;true;true;true;true;true;true;true;true;true;true;true;true;true;true;true;true;true;true;true;false;true;true];
   [true;true;true;true;true;true;true;true;true;true;true;true;true;true;true;true;true;true;true;true;true;true;true;true;true];
   [true;true;true;true;true;true;true;true;true;true;true;true;true;true;true;true;true;true;true;true;true;true;true;true;true;false];
   [true;true;true;true;true;true;true;true;true;true;true;true;true;true;true;true;true;true;true;true;true;true;true;true;true;false;false];
   [true;true;true;true;true;true;true;true;true;true;true;true;true;true;true;true;true;true;true;true;true;true;true;true;true;false;true];
   [true;true;true;true;true;true;true;true;true;true;true;true;true;true;true;true;true;true;true;true;true;true;true;true;true;true];
   [true;true;true;true;true;true;true;true;true;true;true;true;true;true;true;true;true;true;true;true;true;true;true;true;true;true;false];
   [true;true;true;true;true;true;true;true;true;true;true;true;true;true;true;true;true;true;true;true;true;true;true;true;true;true;true];
   [true;true;true;true;true;true;true;true;true;true;true;true;true;true;true;true;true;true;true;true;true;true;true;true;true;true;true;true];
   [true;true;true;true;true;true;true;true;true;true;true;true;true;true;true;true;true;true;true;true;true;true;true;true;true;true;true;true;false];
   [true;true;true;true;true;true;true;true;true;true;true;true;true;true;true;true;true;true;true;true;true;true;true;true;true;true;true;true;true] ].
