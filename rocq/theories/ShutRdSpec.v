(* What nghttp3_conn_shutdown_stream_read promises, read off the calls *)
From Verif Require Import Base ConnModel ConnHist.
Open Scope Z_scope.

(* nghttp3_conn_shutdown_stream_read was called for the stream since it was opened *)
Definition shut_read (id : Z) (h : list kcall) : Prop := exists x, In x (life id h) /\ c_op x = OShutRead id.
