(* Model of the stream scheduler: lib/nghttp3_tnode.c and the scheduling part of lib/nghttp3_conn.c.  A node is
   known by its stream identifier.  The queue of each urgency level is the heap of PqModel.v.  Memory exhaustion is
   not modelled.  [require] below is the result of nghttp3_stream_require_schedule *)
From Verif Require Import Base HttpModel PqModel.
Open Scope Z_scope.

Definition MAX_CYCLE_GAP : Z := 2 ^ 24.     (* lib/nghttp3_tnode.h:36 *)
Definition MIN_WRITELEN : Z := 800.         (* lib/nghttp3_stream.h:51 NGHTTP3_STREAM_MIN_WRITELEN *)
Definition URGENCY_LEVELS : nat := 8.       (* nghttp3.h:2652 *)
Definition u64 (x : Z) : Z := x mod 2 ^ 64.

(* nghttp3_tnode (lib/nghttp3_tnode.h:38-45) and stream->unscheduled_nwrite; [n_sched]: pe.index != BAD_INDEX *)
Record node := mk_node { n_pri : pri; n_cycle : Z; n_sched : bool; n_nw : Z }.
(* lib/nghttp3_tnode.c:34-40 nghttp3_tnode_init *)
Definition node_init : node := mk_node (mk_pri DEFAULT_URGENCY 0) 0 false 0.
Definition nd_pri n v := mk_node v (n_cycle n) (n_sched n) (n_nw n).
Definition nd_cycle n v := mk_node (n_pri n) v (n_sched n) (n_nw n).
Definition nd_sched n v := mk_node (n_pri n) (n_cycle n) v (n_nw n).
Definition nd_nw n v := mk_node (n_pri n) (n_cycle n) (n_sched n) v.
(* all nodes, and conn->sched[u].spq *)
Record sch := mk_sch { sc_n : Z -> node; sc_q : Z -> pq }.
Definition sch_init : sch := mk_sch (fun _ => node_init) (fun _ => pq_init (fun _ => O)).
Definition set_node s x n := mk_sch (upd_z (sc_n s) x n) (sc_q s).
Definition set_pq s u p := mk_sch (sc_n s) (upd_z (sc_q s) u p).

(* lib/nghttp3_conn.c:220-230 cycle_less *)
Definition cycle_less (s : sch) (x y : Z) : bool :=
  let a := n_cycle (sc_n s x) in
  let b := n_cycle (sc_n s y) in
  if a =? b then x <? y else u64 (b - a) <=? MAX_CYCLE_GAP.
(* lib/nghttp3_conn.c conn_get_sched_pq, with its assertion *)
Definition urg_ok (u : Z) : bool := (0 <=? u) && (u <? Z.of_nat URGENCY_LEVELS).
(* lib/nghttp3_tnode.c:44-49 tnode_unschedule; the same two statements are at :85-86 *)
Definition take_out (s : sch) (u x : Z) : outcome sch :=
  match pq_remove (cycle_less s) (sc_q s u) x with
  | Ok p => Ok (set_node (set_pq s u p) x (nd_sched (sc_n s x) false))
  | Err e => Err e
  | Abort => Abort
  end.
(* lib/nghttp3_tnode.c:51-57 nghttp3_tnode_unschedule, lib/nghttp3_conn.c:2184-2189 nghttp3_conn_unschedule_stream *)
Definition unschedule (s : sch) (x : Z) : outcome sch :=
  let u := p_urg (n_pri (sc_n s x)) in
  if negb (urg_ok u) then Abort
  else if negb (n_sched (sc_n s x)) then Ok s
  else take_out s u x.
(* lib/nghttp3_tnode.c:59-68 pq_get_first_cycle *)
Definition first_cycle (s : sch) (u : Z) : outcome Z :=
  if pq_empty (sc_q s u) then Ok 0
  else match pq_top (sc_q s u) with Ok t => Ok (n_cycle (sc_n s t)) | Err e => Err e | Abort => Abort end.
Definition penalty (nwrite : Z) : Z := Z.max 1 (nwrite / MIN_WRITELEN).
Definition push (s : sch) (u x : Z) : sch :=
  let s := set_node s x (nd_sched (sc_n s x) true) in
  set_pq s u (pq_push (cycle_less s) (sc_q s u) x).
(* lib/nghttp3_tnode.c:70-93 nghttp3_tnode_schedule *)
Definition tnode_schedule (s : sch) (x nwrite : Z) : outcome sch :=
  let n := sc_n s x in
  let u := p_urg (n_pri n) in
  let inc := negb (p_inc (n_pri n) =? 0) in
  if negb (n_sched n) then
    match first_cycle s u with
    | Ok c => Ok (push (set_node s x (nd_cycle n (u64 (c + (if (nwrite =? 0) || negb inc then 0 else penalty nwrite))))) u x)
    | Err e => Err e
    | Abort => Abort
    end
  else if 0 <? nwrite then
    if negb inc || Nat.eqb (pq_size (sc_q s u)) 1 then Ok s
    else match take_out s u x with
         | Ok s => Ok (push (set_node s x (nd_cycle (sc_n s x) (u64 (n_cycle n + penalty nwrite)))) u x)
         | Err e => Err e
         | Abort => Abort
         end
  else Ok s.
(* lib/nghttp3_conn.c:2159-2173 nghttp3_conn_schedule_stream *)
Definition schedule (s : sch) (x : Z) : outcome sch :=
  if negb (urg_ok (p_urg (n_pri (sc_n s x)))) then Abort
  else match tnode_schedule s x (n_nw (sc_n s x)) with
       | Ok s => Ok (set_node s x (nd_nw (sc_n s x) 0))
       | Err e => Err e
       | Abort => Abort
       end.
(* lib/nghttp3_conn.c:2175-2182 nghttp3_conn_ensure_stream_scheduled *)
Definition ensure_scheduled (s : sch) (x : Z) : outcome sch := if n_sched (sc_n s x) then Ok s else schedule s x.
(* lib/nghttp3_conn.c:2047-2064 nghttp3_conn_get_next_tx_stream *)
Fixpoint next_tx (fuel : nat) (s : sch) (u : Z) : outcome (option Z) :=
  match fuel with
  | O => Ok None
  | S f => if pq_empty (sc_q s u) then next_tx f s (u + 1)
           else match pq_top (sc_q s u) with Ok t => Ok (Some t) | Err e => Err e | Abort => Abort end
  end.
Definition get_next_tx (s : sch) : outcome (option Z) := next_tx URGENCY_LEVELS s 0.

(* What the calls of the API do to the scheduler *)
(* lib/nghttp3_conn.c:1816-1858 nghttp3_conn_create_stream *)
Definition sc_create (s : sch) (x : Z) : sch := set_node s x node_init.
(* lib/nghttp3_conn.c:1762-1793: a stream created by PRIORITY_UPDATE *)
Definition sc_create_pri (s : sch) (x : Z) (p : pri) : sch := set_node s x (nd_pri node_init p).
(* lib/nghttp3_conn.c:2152-2156, end of conn_submit_headers_data *)
Definition sc_submit (s : sch) (x : Z) (require : bool) : outcome sch := if require then schedule s x else Ok s.
(* lib/nghttp3_conn.c:2392-2396, :2422-2426: unblock and resume *)
Definition sc_wake (s : sch) (x : Z) (require : bool) : outcome sch := if require then ensure_scheduled s x else Ok s.
(* lib/nghttp3_conn.c:2039-2042, end of nghttp3_conn_writev_stream *)
Definition sc_offered (s : sch) (x : Z) (require : bool) : outcome sch := if require then Ok s else unschedule s x.
(* lib/nghttp3_conn.c:2076-2091, nghttp3_conn_add_write_offset *)
Definition sc_written (s : sch) (x n : Z) (require : bool) : outcome sch :=
  let s := set_node s x (nd_nw (sc_n s x) (n_nw (sc_n s x) + n)) in
  if negb require then unschedule s x
  else if n_nw (sc_n s x) <? MIN_WRITELEN then Ok s
  else schedule s x.
(* lib/nghttp3_conn.c:2354-2382 nghttp3_conn_block_stream, nghttp3_conn_shutdown_stream_write *)
Definition sc_block (s : sch) (x : Z) : outcome sch := unschedule (set_node s x (nd_nw (sc_n s x) 0)) x.
(* lib/nghttp3_conn.c:1180-1200 conn_update_stream_priority *)
Definition pri_eq (a b : pri) : bool := (p_urg a =? p_urg b) && (p_inc a =? p_inc b).
Definition sc_priority (s : sch) (x : Z) (p : pri) (require : bool) : outcome sch :=
  if pri_eq (n_pri (sc_n s x)) p then Ok s
  else match unschedule s x with
       | Ok s => let s := set_node s x (nd_pri (sc_n s x) p) in if require then schedule s x else Ok s
       | Err e => Err e
       | Abort => Abort
       end.
(* lib/nghttp3_conn.c:2446, in nghttp3_conn_close_stream *)
Definition sc_close (s : sch) (x : Z) : outcome sch := unschedule s x.
