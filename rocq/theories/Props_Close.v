(* C59: the stream_close callback *)
From Verif Require Import Base BaseLemmas ConvModel HttpModel BidiModel TxModel ControlModel ConnModel ConnDecomp ConnHist RecvSpec ConnRecvHist CloseSpec CloseProofs CloseHist CloseDead ConnDemo Props_Recv.
Open Scope Z_scope.

(* In the call in which a request stream is deleted, whatever the call is, stream_close is called once for it, with the code
   of the application's last nghttp3_conn_close_stream call for it, and no other callback for the stream comes behind it *)
Theorem C59_once : forall K h c o c' rv evs id, history K h c -> op_ok o -> kstep K c o = KOk c' rv evs -> client_bidi id = true ->
  is_open c id = true -> is_open c' id = false ->
  exists code a b, asked id (life id h ++ [mk_call o rv evs c']) = Some code /\ evs = a ++ KClosed id code :: b /\ close_codes id a = [] /\ no_callback id b.
Proof. exact close_once. Qed.
(* and in no other call *)
Theorem C59_only : forall K h c o c' rv evs id, history K h c -> op_ok o -> kstep K c o = KOk c' rv evs -> client_bidi id = true ->
  is_open c id = false \/ is_open c' id = true -> close_codes id evs = [].
Proof. exact close_only. Qed.
(* a request stream that the application has not closed stays *)
Theorem C59_unasked : forall K h c o c' rv evs id, history K h c -> op_ok o -> kstep K c o = KOk c' rv evs -> client_bidi id = true ->
  is_open c id = true -> asked id (life id h ++ [mk_call o rv evs c']) = None -> is_open c' id = true.
Proof.
  intros K h c o c' rv evs id H O S CB O1 A. destruct (is_open c' id) eqn:O2; [reflexivity|]. destruct (close_once K h c o c' rv evs id H O S CB O1 O2) as (code & a & b & E & _). congruence.
Qed.
(* one that it has closed is deleted in that call, unless it waits for the QPACK encoder *)
Theorem C59_now : forall K c id code c' rv evs, is_open c id = true -> (forall n, ~ waits_for c id n) -> kstep K c (OClose id code) = KOk c' rv evs -> is_open c' id = false.
Proof. exact close_now. Qed.
(* between two calls it is there only while it waits, and then the insertions it waits for have not all arrived *)
Theorem C59_pending : forall K h c id code, 0 <= s_cap (ke_set K) -> history K h c -> client_bidi id = true -> is_open c id = true -> asked id (life id h) = Some code ->
  exists n, waits_for c id n /\ inserted c < n.
Proof. intros K h c id code CAP H CB O A. destruct (close_pending K h c id code CAP H CB O A) as (n & W). exists n. split; [exact W|]. exact (C47_waits K h c id n CAP H W). Qed.
(* closing a stream that is not open changes nothing *)
Theorem C59_absent : forall K c id code, is_open c id = false -> kstep K c (OClose id code) = KOk c ERR_STREAM_NOT_FOUND [].
Proof. intros K c id code H. cbn [kstep]. unfold close_stream, is_open in *. destruct (find_stream c id); [discriminate|reflexivity]. Qed.
(* A call that fails (reading from the encoder stream, when a stream behind it is in error) can delete streams before: also then
   stream_close comes at most once for a stream, only for one that is open and was closed by the application, with the code
   of its last call, and is the last callback for it *)
Theorem C59_failing : forall K h c o e evs id, history K h c -> op_ok o -> kstep K c o = KDead e evs -> client_bidi id = true ->
  close_codes id evs = [] \/
  exists code a b, is_open c id = true /\ asked id (life id h) = Some code /\ evs = a ++ KClosed id code :: b /\ close_codes id a = [] /\ no_callback id b.
Proof. exact dead_close. Qed.

(* ---- non-vacuity ---- *)
(* request 0 waits for an insertion and is closed with 268, then with 269: it stays; the encoder stream delivers the
   insertion, and the request's fields are reported and then stream_close with 269 *)
Definition ops59 : list cop := ops47 ++ [OClose 0 268; OClose 0 269].
Definition ops59b : list cop := ops59 ++ [ORead 2 [2; 63; 225; 1; 192; 1; 97] false].
Example C59_applies : history (demo true) (demo_h true ops59) (demo_end true ops59) /\ is_open (demo_end true ops59) 0 = true /\ asked 0 (life 0 (demo_h true ops59)) = Some 269 /\
  match kstep (demo true) (demo_end true ops59) (ORead 2 [2; 63; 225; 1; 192; 1; 97] false) with
  | KOk c' _ evs => is_open c' 0 = false /\ close_codes 0 evs = [269] /\ (2 < length evs)%nat
  | _ => False
  end.
Proof.
  split; [apply demo_ok; vm_compute; reflexivity|]. split; [vm_compute; reflexivity|]. split; [vm_compute; reflexivity|].
  assert (X : match kstep (demo true) (demo_end true ops59) (ORead 2 [2; 63; 225; 1; 192; 1; 97] false) with
    | KOk c' _ evs => negb (is_open c' 0) && (match close_codes 0 evs with [269] => true | _ => false end) && (2 <? zlen evs) | _ => false end = true) by (vm_compute; reflexivity).
  destruct (kstep _ _ _) as [c' rv evs| |]; try discriminate X. apply andb_true_iff in X as [X X3]. apply andb_true_iff in X as [X1 X2]. split; [apply negb_true_iff; exact X1|]. split; [|apply Z.ltb_lt in X3; unfold zlen in X3; lia].
  destruct (close_codes 0 evs) as [|z [|? ?]]; try discriminate X2; [|destruct z as [|p|p]; try discriminate X2; repeat (destruct p as [p|p|]; try discriminate X2)].
  destruct z as [|p|p]; try discriminate X2; repeat (destruct p as [p|p|]; try discriminate X2); reflexivity.
Qed.
(* and one that does not wait *)
Example C59_now_applies : match kstep (demo true) (demo_end true [ORead 0 demo_req true]) (OClose 0 256) with KOk c' rv evs => is_open c' 0 = false /\ rv = 0 /\ evs = [KClosed 0 256] | _ => False end.
Proof. vm_compute. auto. Qed.
(* request 4 waits behind request 0 with a section that is in error: request 0 is deleted in the call that fails *)
Definition ops59d : list cop := ops59 ++ [ORead 4 [1; 6; 2; 0; 209; 215; 193; 129] true].
Example C59_failing_applies : history (demo true) (demo_h true ops59d) (demo_end true ops59d) /\
  match kstep (demo true) (demo_end true ops59d) (ORead 2 [2; 63; 225; 1; 192; 1; 97] false) with
  | KDead e evs => (e =? ERR_QPACK_DECOMPRESSION_FAILED) && (match close_codes 0 evs with [code] => code =? 269 | _ => false end) && (match close_codes 4 evs with [] => true | _ => false end) | _ => false end = true.
Proof. split; [apply demo_ok; vm_compute; reflexivity|vm_compute; reflexivity]. Qed.
Print Assumptions C59_failing.
Print Assumptions C59_once.
Print Assumptions C59_only.
Print Assumptions C59_unasked.
Print Assumptions C59_now.
Print Assumptions C59_pending.
Print Assumptions C59_absent.
