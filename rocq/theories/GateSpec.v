(* What the application did to the sending side of a stream, read off its calls *)
From Verif Require Import Base TxModel ConnModel ConnHist.
Open Scope Z_scope.

(* the last nghttp3_conn_block_stream or nghttp3_conn_unblock_stream for the stream was block *)
Definition paused (id : Z) (h : list kcall) : bool :=
  fold_left (fun b x => match c_op x with OBlock i => if i =? id then true else b | OUnblock i => if i =? id then false else b | _ => b end) h false.
(* nghttp3_conn_shutdown_stream_write was called for the stream *)
Definition write_ended (id : Z) (h : list kcall) : bool := existsb (fun x => match c_op x with OShutWrite i => i =? id | _ => false end) h.
(* how often the read_data callback of the stream was called *)
Definition reads (c : conn) (id : Z) : nat := match find_stream c id with Some s => t_nrd (st_t s) | None => 0%nat end.
(* what its last call, call number n, answered: NGHTTP3_ERR_WOULDBLOCK *)
Definition had_nothing (K : kenv) (id : Z) (n : nat) : bool := match te_rd (ke_tx K id) (Nat.pred n) with RdErr e => e =? ERR_WOULDBLOCK | _ => false end.
(* its last call answered so, and nghttp3_conn_resume_stream was not called for the stream since; with the number of calls *)
Definition starve1 (K : kenv) (id : Z) (a : nat * bool) (x : kcall) : nat * bool :=
  let n := reads (c_post x) id in
  (n, if Nat.ltb (fst a) n then had_nothing K id n else match c_op x with OResume i => if i =? id then false else snd a | _ => snd a end).
Definition starved (K : kenv) (id : Z) (h : list kcall) : bool := snd (fold_left (starve1 K id) h (0%nat, false)).

(* The bytes l of a request stream end inside a frame of whose payload n bytes are missing; n is 0 if they end between
   two frames, or before the length of a frame is known.  RFC 9114 7.1 *)
From Verif Require Import RfcStreamSpec.
Inductive in_frame : list Z -> Z -> Prop :=
| if_head l : (forall ty len p, ~ frame_head l ty len p) -> in_frame l 0
| if_payload l ty len p : frame_head l ty len p -> zlen p <= len -> in_frame l (len - zlen p)
| if_next l ty len p r n : frame_head l ty len (p ++ r) -> zlen p = len -> in_frame r n -> in_frame l n.
