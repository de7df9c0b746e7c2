(* RFC 9204 section 4.4: the decoder stream, as a sequence of instructions. *)
From Verif Require Import Base QpackIntSpec QpackTabModel QpackDecModel QpackHistModel.

Inductive dinstr := IAck (id : Z) | ICancel (id : Z) | IInc (n : Z).
(* 1xxxxxxx Section Acknowledgment, 01xxxxxx Stream Cancellation, 00xxxxxx Insert Count
   Increment *)
Definition rfc_dinstr (l : list Z) : option (dinstr * list Z) :=
  match l with
  | [] => None
  | b :: _ =>
    if 128 <=? b then match rfc_int 7 l with Some (v, r) => Some (IAck v, r) | None => None end
    else if 64 <=? b then match rfc_int 6 l with Some (v, r) => Some (ICancel v, r) | None => None end
    else match rfc_int 6 l with Some (v, r) => Some (IInc v, r) | None => None end
  end.
Inductive rfc_dstream : list Z -> list dinstr -> Prop :=
| rd_nil : rfc_dstream [] []
| rd_cons l i r il : rfc_dinstr l = Some (i, r) -> rfc_dstream r il -> rfc_dstream l (i :: il).

(* bytes written to the decoder stream during a history *)
Fixpoint flushed (tr : list (dop * dres)) : list Z :=
  match tr with
  | [] => []
  | (_, DrBytes l) :: tr' => l ++ flushed tr'
  | _ :: tr' => flushed tr'
  end.
(* sections completed that referred to the dynamic table: stream and Required Insert Count *)
Fixpoint completed (tr : list (dop * dres)) : list (Z * Z) :=
  match tr with
  | [] => []
  | (_, DrFinal id n) :: tr' => if n =? 0 then completed tr' else (id, n) :: completed tr'
  | _ :: tr' => completed tr'
  end.
Fixpoint cancelled (tr : list (dop * dres)) : list Z :=
  match tr with
  | [] => []
  | (DCancel id, DrDone) :: tr' => id :: cancelled tr'
  | _ :: tr' => cancelled tr'
  end.
Fixpoint acks (il : list dinstr) : list Z :=
  match il with [] => [] | IAck id :: t => id :: acks t | _ :: t => acks t end.
Fixpoint cancels (il : list dinstr) : list Z :=
  match il with [] => [] | ICancel id :: t => id :: cancels t | _ :: t => cancels t end.
(* section 2.1.4: the Known Received Count the peer computes; [secs] lists the Required
   Insert Counts of the sections acknowledged, in order *)
Fixpoint known (k : Z) (il : list dinstr) (secs : list Z) : Z :=
  match il with
  | [] => k
  | IAck _ :: t => match secs with [] => known k t [] | n :: secs' => known (Z.max k n) t secs' end
  | ICancel _ :: t => known k t secs
  | IInc n :: t => known (k + n) t secs
  end.

(* number of entries received so far *)
Definition insert_count (w : dworld) : Z := next_absidx (d_ctx (w_dec w)).

(* the encoder stream bytes delivered during a history; no call returned an error *)
Fixpoint received (ops : list dop) : list Z :=
  match ops with
  | [] => []
  | DEnc src :: t => src ++ received t
  | _ :: t => received t
  end.
Definition error_free (tr : list (dop * dres)) : Prop := forall o e, ~ In (o, DrErr e) tr.
