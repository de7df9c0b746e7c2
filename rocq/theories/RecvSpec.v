(* Specification vocabulary for what a request stream receives, over histories of API calls (C23, C25 at the level
   of the connection).  Everything is read off the calls, their results and the callbacks; [life id h] (ConnHist.v)
   is the part of the history since the stream was opened. *)
From Verif Require Import Base BaseLemmas QpackTabModel QpackDecModel HttpModel BidiModel BidiHist BidiSpec TraceSpec TxModel ConnModel ConnHist.
Open Scope Z_scope.

(* the callbacks for one stream among those of a call *)
Definition shown1 (id : Z) (e : kev) : list bev := match e with KStream i b => if i =? id then [b] else [] | _ => [] end.
Definition shown (id : Z) (evs : list kev) : list bev := concat (map (shown1 id) evs).
Definition deferred1 (id : Z) (e : kev) : Z := match e with KDeferred i n => if i =? id then n else 0 | _ => 0 end.
Definition sum (l : list Z) : Z := fold_right Z.add 0 l.
Definition deferred_to (id : Z) (evs : list kev) : Z := sum (map (deferred1 id) evs).
(* over several calls: the callbacks, the bytes given to nghttp3_conn_read_stream, what it returned, and what
   deferred_consume reported *)
Definition all_shown (id : Z) (g : list kcall) : list bev := concat (map (fun x => shown id (c_evs x)) g).
Definition given1 (id : Z) (o : cop) : list Z := match o with ORead i src _ => if i =? id then src else [] | _ => [] end.
Definition given (id : Z) (g : list kcall) : list Z := concat (map (fun x => given1 id (ConnHist.c_op x)) g).
Definition returned1 (id : Z) (o : cop) (rv : Z) : Z := match o with ORead i _ _ => if i =? id then rv else 0 | _ => 0 end.
Definition returned (id : Z) (g : list kcall) : Z := sum (map (fun x => returned1 id (ConnHist.c_op x) (ConnHist.c_rv x)) g).
Definition all_deferred (id : Z) (g : list kcall) : Z := sum (map (fun x => deferred_to id (c_evs x)) g).
(* the request a client's stream was opened with *)
Definition request_of (g : list kcall) : list QpackTabModel.nv :=
  match g with x :: _ => match ConnHist.c_op x with ORequest _ nva _ => map same_nv nva | _ => [] end | [] => [] end.
Definition role_of (K : kenv) (req : list QpackTabModel.nv) : role :=
  if ke_server K then Server (s_conn (ke_set K)) (ke_sf K) else Client req.
(* bytes received but neither returned, nor reported by deferred_consume, nor handed to the application *)
Definition held_back (id : Z) (g : list kcall) : Z := zlen (given id g) - returned id g - all_deferred id g - zlen (delivered (all_shown id g)).
(* the stream waits for the n-th insertion of the peer's QPACK encoder; the insertions received *)
Definition waits_for (c : conn) (id n : Z) : Prop := exists s, find_stream c id = Some s /\ b_blk (x_st (st_x s)) = true /\ n = s_ricnt (b_sctx (x_st (st_x s))).
Definition inserted (c : conn) : Z := next_absidx (d_ctx (k_dec c)).
(* the insertions received when the stream was opened: in the state before the call that opened it *)
Definition inserted_after (h : list kcall) : Z := match rev h with x :: _ => inserted (c_post x) | [] => 0 end.
Definition inserted_before (id : Z) (h : list kcall) : Z := inserted_after (firstn (length h - length (life id h)) h).
