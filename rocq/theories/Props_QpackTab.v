(* C08: name tokens and the static table. *)
From Coq Require Import String.
From Verif Require Import Base Tables QpackTabModel QpackTabSpec QpackTabProofs.

Theorem C08_static_table_is_rfc : map (fun r => (fst (fst r), snd (fst r))) stable = rfc_static_table.
Proof. exact static_table_rfc. Qed.
Print Assumptions C08_static_table_is_rfc.

Theorem C08_token_known : forall name, lookup_token name <> -1 <-> In name known_names.
Proof. exact lookup_token_known. Qed.
Print Assumptions C08_token_known.
Example C08_token_ex : lookup_token (bs "content-length"%string) = 55 /\ lookup_token (bs "content-lengti"%string) = -1
  /\ lookup_token (bs ":protocol"%string) <> -1.
Proof. split; [|split]; vm_compute; (reflexivity || discriminate). Qed.

Theorem C08_token_injective : forall n1 n2,
  lookup_token n1 <> -1 -> lookup_token n1 = lookup_token n2 -> n1 = n2.
Proof. exact lookup_token_inj. Qed.
Print Assumptions C08_token_injective.

(* the token stored with row i of the static table is the token of its name *)
Theorem C08_row_token : forall i n v t, stable_get i = Some (n, v, t) ->
  t = lookup_token n /\ nth_error rfc_static_table (Z.to_nat i) = Some (n, v).
Proof. exact stable_get_rfc_row. Qed.
Print Assumptions C08_row_token.

(* looking a field up in the static table *)
Theorem C08_lookup_static : forall name value never,
  In name (map fst rfc_static_table) ->
  exists i exact, lookup_stable (lookup_token name) value never = Ok (i, exact) /\
    0 <= i /\
    (exists v, nth_error rfc_static_table (Z.to_nat i) = Some (name, v) /\ (exact = true -> v = value)) /\
    (exact = true <-> never = false /\ In (name, value) rfc_static_table).
Proof. exact lookup_stable_rfc. Qed.
Print Assumptions C08_lookup_static.
Example C08_lookup_ex :
  lookup_stable (lookup_token (bs ":status"%string)) (bs "204"%string) false = Ok (64, true) /\
  lookup_stable (lookup_token (bs ":status"%string)) (bs "205"%string) false = Ok (24, false) /\
  In (bs ":status"%string) (map fst rfc_static_table).
Proof. split; [|split]; [vm_compute; reflexivity..|]. vm_compute; tauto. Qed.
