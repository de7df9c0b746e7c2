(* Specification vocabulary for request streams (C23-C25); independent of the proofs. *)
From Verif Require Import Base ConvModel QpackTabModel QpackDecModel HttpModel BidiModel BidiHist.
Open Scope Z_scope.

(* how the connection's QPACK decoder may change between two operations on this stream: the
   encoder stream delivers bytes, another stream completes a field section or is cancelled,
   the decoder stream is written, the application announces more concurrent streams *)
Inductive dec_evolves : dec -> dec -> Prop :=
| de_refl d : dec_evolves d d
| de_encoder_stream d d1 src n d' : bytes src -> read_encoder d src = (d1, Ok n) -> dec_evolves d1 d' -> dec_evolves d d'
| de_other_section d d1 s d' : 0 <= s_id s < 2 ^ 62 -> read_request_fin d s = Ok d1 -> dec_evolves d1 d' -> dec_evolves d d'
| de_cancel d d1 id d' : dec_cancel_stream d id = Ok d1 -> dec_evolves d1 d' -> dec_evolves d d'
| de_decoder_stream d d1 n l d' : write_decoder d n = Ok (d1, l) -> dec_evolves d1 d' -> dec_evolves d d'
| de_concurrent d n d' : dec_evolves (dec_set_max_concurrent d n) d' -> dec_evolves d d'.

(* what the rest of the connection may do: it changes the decoder only as above and does not
   change the role of the endpoint *)
Definition rop_ok (E : benv) (x : rx) (o : rop) : Prop :=
  match o with
  | ROther E' d => e_req E' = e_req E /\ dec_evolves (b_dec (x_st x)) d
  | _ => True
  end.
Fixpoint hist_ok (E : benv) (x : rx) (ops : list rop) : Prop :=
  match ops with
  | [] => True
  | o :: ops' =>
    rop_ok E x o /\
    match x_step false E x o with
    | (E', XOk x' _) => hist_ok E' x' ops'
    | _ => True
    end
  end.

(* two histories that differ only in how the received bytes are cut *)
Inductive recut : list rop -> list rop -> Prop :=
| rc_refl l : recut l l
| rc_sym l l' : recut l l' -> recut l' l
| rc_trans l1 l2 l3 : recut l1 l2 -> recut l2 l3 -> recut l1 l3
| rc_op o l l' : recut l l' -> recut (o :: l) (o :: l')
| rc_cut a b fin l : recut (RRecv a false :: RRecv b fin :: l) (RRecv (a ++ b) fin :: l)
| rc_empty l : recut (RRecv [] false :: l) l.

(* same state: everything equal, except how buffered input is split into buffers *)
Definition same_rx (x y : rx) : Prop :=
  x_id x = x_id y /\ x_st x = x_st y /\ x_shut x = x_shut y /\ x_eof x = x_eof y /\ x_closed x = x_closed y /\
  x_ret x = x_ret y /\ x_def x = x_def y /\ inbytes (x_inq x) = inbytes (x_inq y).
(* one sequence of events is the other, or the beginning of it *)
Definition comparable {A} (a b : list A) : Prop := exists c, b = a ++ c \/ a = b ++ c.
(* same outcome: equal events and states; on an error the same code, and events that differ
   at most by how many bytes of the offending DATA frame were delivered before it *)
Definition same_outcome (r1 r2 : xres) : Prop :=
  match r1, r2 with
  | XOk x1 e1, XOk x2 e2 | XGone x1 e1, XGone x2 e2 => same_rx x1 x2 /\ e1 = e2
  | XErr e1 v1, XErr e2 v2 => e1 = e2 /\ comparable v1 v2
  | _, _ => False
  end.

(* bytes received in a history, and bytes delivered to the application *)
Fixpoint received (ops : list rop) : list Z :=
  match ops with
  | RRecv src _ :: ops' => src ++ received ops'
  | _ :: ops' => received ops'
  | [] => []
  end.
Fixpoint delivered (evs : list bev) : list Z :=
  match evs with
  | BvData b :: evs' => b :: delivered evs'
  | _ :: evs' => delivered evs'
  | [] => []
  end.
