(* C55: what one application submits on a request stream is what the other one is given.  Statements; proofs in E2e.v *)
From Coq Require Import String.
From Verif Require Import Base BaseLemmas ConvModel QpackTabModel QpackTabSpec QpackDecModel QpackEncModel QpackEncSpec HttpSpec HttpModel BidiModel BidiHist ControlModel TxModel TxSpec ConnModel ConnHist ConnUni RecvSpec SendSpec
  RfcStreamSpec MeanApi MeanListen EncRfc E2eSpec E2e ConnDemo SendDemo Props_Mean.
Open Scope Z_scope.

(* The sender: any history of calls of the API with the QPACK encoder history [tr], made for the capacity that the
   receiver announced (C16_mixed_capacities_refuted: otherwise it may fail).  The receiver: any history of calls.  The
   transport: the receiver was given a beginning of the bytes that the sender offered on this stream, and a beginning [es]
   of the encoder's instructions, each cut into any pieces, in any order.  in_window: see C54_only_reading.
   Then the callbacks for the stream are the beginning of what the submitted frames say: the fields of each header
   section in order, with the never-index flags, and the bytes of the readers, nothing added, nothing reordered; the fields
   left out are those that C19-C22 leave out. *)
Theorem C55_delivered : forall K1 h1 c1 K2 h2 c2 id ops E tr es es' more,
  env_fine K1 -> history K1 h1 c1 -> sending_ok K1 h1 -> is_open c1 id = true ->
  QpackEncSpec.history (s_cap (ke_set K2)) ops -> erun (enc_init (s_cap (ke_set K2))) ops = Some (E, tr) -> replays tr id (ke_tx K1 id) (sections_made K1 c1 id h1) ->
  history K2 h2 c2 -> client_bidi id = true -> is_open c2 id = true -> encoder_bytes K2 h2 c2 es ->
  enc_bytes tr = es ++ es' -> wire (slog K1 id h1) = given id (life id h2) ++ more ->
  in_window (s_cap (ke_set K2)) (inserted_before id h2) (inserted c2) tr id ->
  exists l unsent open j its rest, submitted (slog K1 id h1) = l ++ unsent /\ told (ke_tx K1 id) l open j its /\
    delivered its rest (content (all_shown id (life id h2))).
Proof. exact both_ends. Qed.
(* When the end of the stream has been offered and all the bytes have arrived, everything submitted has been delivered,
   unless the stream still waits for the encoder stream or the receiver stopped reading it. *)
Theorem C55_all_delivered : forall K1 h1 c1 K2 h2 c2 id ops E tr es es' pre vs post,
  env_fine K1 -> history K1 h1 c1 -> sending_ok K1 h1 -> is_open c1 id = true ->
  QpackEncSpec.history (s_cap (ke_set K2)) ops -> erun (enc_init (s_cap (ke_set K2))) ops = Some (E, tr) -> replays tr id (ke_tx K1 id) (sections_made K1 c1 id h1) ->
  history K2 h2 c2 -> client_bidi id = true -> is_open c2 id = true -> encoder_bytes K2 h2 c2 es ->
  enc_bytes tr = es ++ es' -> wire (slog K1 id h1) = given id (life id h2) ->
  in_window (s_cap (ke_set K2)) (inserted_before id h2) (inserted c2) tr id ->
  slog K1 id h1 = pre ++ TOffer vs true :: post -> Forall (fun e => ~ adds_frames e) post ->
  (forall x, In x (life id h2) -> ConnHist.c_op x <> OShutRead id /\ forall code, ~ In (KStop id code) (c_evs x) /\ ~ In (KStream id (BvStopSending code)) (c_evs x)) ->
  (forall n, ~ waits_for c2 id n) ->
  exists j its, told (ke_tx K1 id) (submitted (slog K1 id h1)) false j its /\ ended (ke_tx K1 id) (slog K1 id h1) j /\
    drops may_miss its (content (all_shown id (life id h2))).
Proof.
  intros K1 h1 c1 K2 h2 c2 id ops E tr es es' pre vs post A1 A2 A3 A4 A5 A6 A7 A8 A9 A10 A11 A12 A13 A14 FN NA QT NW. assert (CAP : 0 <= s_cap (ke_set K2)) by apply A5.
  destruct (both_ends_all K1 h1 c1 K2 h2 c2 id ops E tr es es' pre vs post A1 A2 A3 A4 A5 A6 A7 A8 A9 A10 A11 A12 A13 A14 FN NA) as (j & its & T & EN & pr & -> & D); [|exact NW|exists j, (pr ++ []); rewrite app_nil_r in *; auto].
  apply (api_listens K2 id A9 h2 c2 A8 A10). intros x I. destruct (QT x I) as [F1 F2]. split; [exact F1|]. intros (code & [Q|Q]); destruct (F2 code); contradiction.
Qed.
Print Assumptions C55_delivered.
Print Assumptions C55_all_delivered.

(* ---- non-vacuity: a request with a field from the dynamic table and a body ---- *)
Definition e_nva : list ConvModel.nv :=
  [mknv (bs ":method"%string) (bs "GET"%string) 0; mknv (bs ":scheme"%string) (bs "https"%string) 0; mknv (bs ":path"%string) (bs "/"%string) 0;
   mknv (bs ":authority"%string) (bs "a"%string) 0; mknv (bs "x-one"%string) (bs "value one"%string) FLAG_TRY_INDEX].
Definition e_ops : list eop := [ESetCap 256; ESetBlocked 4; EEncode 0 (map same_nv e_nva)].
Definition e_eb : list Z := [63; 225; 1; 192; 1; 97; 100; 242; 177; 234; 47; 135; 238; 58; 45; 42; 135; 168; 191].
Definition e_tr : list (eop * eres) := [(ESetCap 256, ErDone); (ESetBlocked 4, ErDone); (EEncode 0 (map same_nv e_nva), ErSection [3; 129; 209; 215; 193; 16; 17] e_eb 2)].
Definition nv_dec (a b : ConvModel.nv) : {a = b} + {a <> b}. Proof. decide equality; try apply Z.eq_dec; apply (list_eq_dec Z.eq_dec). Defined.
Definition e_tx (id : Z) : txenv :=
  mk_te (fun _ nva => if list_eq_dec nv_dec nva e_nva then Ok ([3; 129], [209; 215; 193; 16; 17], e_eb) else Err ERR_CALLBACK_FAILURE)
    (fun j => match j with O => RdData [[10; 11]; [12]] false false | 1%nat => RdData [[20; 21]] true false | _ => RdErr 0 end).
Definition e_k : kenv := mk_ke false demo_set demo_sf e_tx (fun _ src => Ok (zlen src)).
Definition e_send : list cop := [OBindControl 2; OBindQpack 6 10; ORequest 0 e_nva true; OWritev 4%nat; OAddWrite 2 17; OWritev 4%nat; OAddWrite 10 1; OWritev 4%nat; OAddWrite 6 1; OWritev 4%nat; OAddWrite 6 19; OWritev 2%nat; OAddWrite 0 4; OWritev 8%nat].
Definition e_wire : list Z := [1; 7; 3; 129; 209; 215; 193; 16; 17; 0; 3; 10; 11; 12; 0; 2; 20; 21].
(* the request arrives first and waits for the encoder stream *)
Definition e_recv : list cop := [ORead 0 (firstn 6 e_wire) false; ORead 2 (2 :: firstn 8 e_eb) false; ORead 0 (skipn 6 e_wire) true; ORead 2 (skipn 8 e_eb) false].
Lemma e_fine : env_fine e_k.
Proof.
  split; [|repeat split; cbn; unfold max_varint; lia]. intros id. split; [split; [|split]|].
  - intros k nva. cbn [te_enc e_k ke_tx e_tx]. destruct (list_eq_dec _ _ _); discriminate.
  - intros k nva p r e _ H. cbn [te_enc e_k ke_tx e_tx] in H. destruct (list_eq_dec _ _ _); [|discriminate H]. injection H as <- <- <-. repeat apply conj; try discriminate; try reflexivity; repeat (apply Forall_cons; [unfold is_byte; lia|]); apply Forall_nil.
  - intros [|[|j]] vecs eof ne H; inversion H; subst; (split; [repeat (constructor; try (unfold is_byte; lia))|left; discriminate]).
  - intros k nva p r e H. cbn [te_enc e_k ke_tx e_tx] in H. destruct (list_eq_dec _ _ _); [|discriminate H]. injection H as <- <- <-. split; [repeat (constructor; try (unfold is_byte; lia))|reflexivity].
Qed.
Example C55_sender : env_fine e_k /\ history e_k (run_h e_k e_send) (run_end e_k e_send) /\ sending_ok e_k (run_h e_k e_send) /\ is_open (run_end e_k e_send) 0 = true /\
  QpackEncSpec.history 256 e_ops /\ (exists E, erun (enc_init 256) e_ops = Some (E, e_tr)) /\ replays e_tr 0 (ke_tx e_k 0) (sections_made e_k (run_end e_k e_send) 0 (run_h e_k e_send)) /\
  wire (slog e_k 0 (run_h e_k e_send)) = e_wire /\ exists pre vs, slog e_k 0 (run_h e_k e_send) = pre ++ [TOffer vs true].
Proof.
  split; [exact e_fine|]. split; [apply run_ok; vm_compute; reflexivity|]. split; [apply sendb_ok; vm_compute; reflexivity|]. split; [vm_compute; reflexivity|].
  split. { split; [lia|]. split; [|reflexivity]. unfold e_ops. repeat (constructor; cbn [eop_ok]); try lia; try discriminate; try reflexivity. }
  split. { assert (X : option_map snd (erun (enc_init 256) e_ops) = Some e_tr) by (vm_compute; reflexivity). destruct (erun (enc_init 256) e_ops) as [[E tr]|]; [|discriminate X]. cbn in X. injection X as ->. exists E. reflexivity. }
  split. { intros k nva p r e _ H. cbn [te_enc e_k ke_tx e_tx] in H. destruct (list_eq_dec _ _ _) as [->|]; [|discriminate H]. injection H as <- <- <-. exists e_eb, 2. right. right. left. reflexivity. }
  split; [vm_compute; reflexivity|]. eexists [_; _; _], _. vm_compute. reflexivity.
Qed.
Example C55_receiver : history (demo true) (demo_h true e_recv) (demo_end true e_recv) /\ is_open (demo_end true e_recv) 0 = true /\
  encoder_bytes (demo true) (demo_h true e_recv) (demo_end true e_recv) e_eb /\ enc_bytes e_tr = e_eb ++ [] /\ given 0 (life 0 (demo_h true e_recv)) = e_wire /\
  in_window 256 (inserted_before 0 (demo_h true e_recv)) (inserted (demo_end true e_recv)) e_tr 0 /\ (forall n, ~ waits_for (demo_end true e_recv) 0 n) /\
  (forall x, In x (life 0 (demo_h true e_recv)) -> ConnHist.c_op x <> OShutRead 0 /\ forall code, ~ In (KStop 0 code) (c_evs x) /\ ~ In (KStream 0 (BvStopSending code)) (c_evs x)) /\
  content (all_shown 0 (life 0 (demo_h true e_recv))) = Begin :: map Fld (as_fields e_nva) ++ [Finish] ++ map Byte [10; 11; 12; 20; 21].
Proof.
  split; [apply demo_ok; vm_compute; reflexivity|]. split; [vm_compute; reflexivity|].
  split. { left. exists 2. split; [|vm_compute; reflexivity]. split; [vm_compute; reflexivity|]. split; [|vm_compute; reflexivity].
    assert (is_open (demo_end true e_recv) 2 = true) as O by (vm_compute; reflexivity). intros N. unfold is_open in O. rewrite N in O. discriminate O. }
  split; [vm_compute; reflexivity|]. split; [vm_compute; reflexivity|].
  split. { intros hs sec eb ric [X|[X|[X|[]]]]; try discriminate X. injection X as _ _ _ <-. right. replace (inserted_before 0 (demo_h true e_recv)) with 0 by (vm_compute; reflexivity). replace (inserted (demo_end true e_recv)) with 2 by (vm_compute; reflexivity). change (256 / 32) with 8. lia. }
  split. { intros n (s & F & B & _). assert ((match find_stream (demo_end true e_recv) 0 with Some s => b_blk (x_st (st_x s)) | None => false end) = false) as W by (vm_compute; reflexivity). rewrite F in W. rewrite B in W. discriminate W. }
  split. { intros x I. assert (forallb quiet0 (life 0 (demo_h true e_recv)) = true) as Q by (vm_compute; reflexivity). rewrite forallb_forall in Q. apply quiet0_ok. apply Q. exact I. }
  vm_compute. reflexivity.
Qed.
