(* Closing a request stream: what the application asked for and what it is told *)
From Verif Require Import Base ConnModel ConnHist.
Open Scope Z_scope.

(* the codes of the stream_close callbacks for a stream *)
Definition close_codes (id : Z) (evs : list kev) : list Z := flat_map (fun e => match e with KClosed i code => if i =? id then [code] else [] | _ => [] end) evs.
(* no callback for the stream *)
Definition no_callback (id : Z) (evs : list kev) : Prop :=
  Forall (fun e => match e with KStream i _ | KDeferred i _ | KClosed i _ | KAcked i _ => i <> id | _ => True end) evs.
(* the code of the last nghttp3_conn_close_stream call for the stream among these calls *)
Fixpoint asked (id : Z) (h : list kcall) : option Z :=
  match h with
  | [] => None
  | x :: r => match asked id r with
              | Some code => Some code
              | None => match c_op x with OClose i code => if i =? id then Some code else None | _ => None end
              end
  end.
