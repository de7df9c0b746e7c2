(* What a history of API calls shows of the peer's control stream *)
From Verif Require Import Base ConvSpec HttpModel ControlModel ControlSpec ConnModel ConnHist ConnUni Props_Uni.
Open Scope Z_scope.

(* the callbacks made for control stream frames, over all calls *)
Definition control_evs (evs : list kev) : list cev := flat_map (fun e => match e with KControl e => [e] | _ => [] end) evs.
Definition control_events (h : list kcall) : list cev := flat_map (fun x => control_evs (c_evs x)) h.
(* the bytes received on the peer's control stream, behind its type *)
Definition control_bytes (K : kenv) (h : list kcall) (c : conn) (bs : list Z) : Prop :=
  (exists id, peer_stream K h c id 0 /\ bs = behind_type (heard id h)) \/ ((forall id, ~ peer_stream K h c id 0) /\ bs = []).
(* the last number given to nghttp3_conn_set_max_client_streams_bidi, 0 if it was not called *)
Fixpoint last_limit (n : Z) (ops : list cop) : Z :=
  match ops with [] => n | OMaxClient m :: r => last_limit m r | _ :: r => last_limit n r end.
Definition stream_limit (h : list kcall) : Z := last_limit 0 (ops_of h).
(* that number was n in every call of the history behind which the peer's control stream was known *)
Definition limit_is (K : kenv) (h : list kcall) (n : Z) : Prop :=
  forall a x b, h = a ++ x :: b -> (exists id, peer_stream K (a ++ [x]) (c_post x) id 0) -> stream_limit a = n.
(* The meaning of the bytes behind the SETTINGS frame, one complete frame after the other, by the table of ControlSpec
   (RFC 9114 7.2, RFC 9218 7): from g (the last GOAWAY identifier) and n (one more than the last MAX_PUSH_ID) to
   g' and n', with the callbacks; [rest]: the bytes behind the frames looked at *)
Inductive ctl_told (server : bool) (pp : list Z -> option pri) (streams : Z) : Z -> Z -> list Z -> list cev -> Z -> Z -> list Z -> Prop :=
| ct_end g n bs : ctl_told server pp streams g n bs [] g n bs
| ct_frame g n p ty payload cbs g1 n1 bs evs g' n' rest : rfc_frame p = Some (ty, payload, []) ->
    ctl_frame server pp streams g n ty payload = Some (CtlOk cbs g1 n1) ->
    ctl_told server pp streams g1 n1 bs evs g' n' rest -> ctl_told server pp streams g n (p ++ bs) (cbs ++ evs) g' n' rest.
