(* C58: the encoder stream of a connection and its header sections.  Statements; proofs in EncStream.v and EncSent.v *)
From Coq Require Import String.
From Verif Require Import Base BaseLemmas ConvModel QpackTabModel QpackTabSpec QpackDecModel QpackEncModel QpackEncSpec HttpSpec HttpModel BidiModel BidiHist ControlModel TxModel TxSpec ConnModel ConnHist ConnUni RecvSpec SendSpec TxGhost SendWire
  RfcStreamSpec MeanApi MeanListen EncRfc E2eSpec E2e ConnDemo SendDemo Props_Uni Props_E2e EncStreamSpec EncStream EncSent.
Open Scope Z_scope.

(* There is one order in which the header sections of all streams are given to the encoder.  It grows at its end, by calls
   of nghttp3_conn_writev_stream; each section in it was encoded, with its number on its stream; for a stream that is open
   it holds the first sections submitted since the stream was opened, each once and in the order of submission. *)
Theorem C58_one_order : forall K h c, env_fine K -> history K h c -> sending_ok K h ->
  (forall x, encodings K (h ++ [x]) = encodings K h ++ encodings1 K h x) /\
  (forall e, In e (encodings K h) -> client_bidi (fst (fst e)) = true /\ exists p r b, answer_to K e = Ok (p, r, b)) /\
  (forall id, is_open c id = true -> (made c id <= List.length (sections (submitted (slog K id h))))%nat /\
    exists old, of_stream id (encodings K h) = old ++ first_sections K id (made c id) h).
Proof.
  intros K h c EF H SO. destruct (enc_sections K EF h c H SO) as (A & B). split; [intros x; apply encodings_snoc|]. split; [|exact B]. intros e I. rewrite Forall_forall in A. exact (A e I).
Qed.
(* The HEADERS frames that a request stream carries are those sections, with the encoder's answer to the section of the same
   number as payload: a frame belongs to the stream it was submitted on. *)
Theorem C58_frames : forall K h c id, env_fine K -> history K h c -> sending_ok K h -> is_open c id = true -> stype id h = None ->
  exists w l rest open j fs, offered_from w (slog K id h) /\ l_hi (tled (slog K id h)) <= zlen w /\ frames_of w fs /\ submitted (slog K id h) = l ++ rest /\
    says (ke_tx K id) l open (made c id) j (map fst fs) /\ sections l = map snd (first_sections K id (made c id) h).
Proof.
  intros K h c id EF H SO O ST. unfold is_open in O. destruct (find_stream c id) as [s|] eqn:F; [|discriminate]. destruct (enc_says K EF h c id s H SO F ST) as (w & l & rest & op & j & fs & A & L & B & C & D & E). exists w, l, rest, op, j, fs.
  split; [exact A|]. split; [exact L|]. split; [exact C|]. split; [exact D|]. split; [exact B|]. unfold first_sections, nth_section. rewrite map_map, D, sections_app. cbn [snd]. rewrite <- E. apply nth_ext with (d := []) (d' := []); [rewrite map_length, seq_length; reflexivity|].
  intros n N. rewrite nth_indep with (d' := nth 0 (sections l ++ sections rest) []) (n := n) (l := map _ _) by (rewrite map_length, seq_length; exact N). rewrite (map_nth (fun k => nth k (sections l ++ sections rest) []) _ 0%nat), seq_nth by exact N. symmetry. apply app_nth1. exact N.
Qed.
(* The endpoint's encoder stream: its type, then the instructions that came with these sections, in that order, and nothing
   else.  Every offer is a piece of that, from the point the transport has reached. *)
Theorem C58_encoder_stream : forall K h c q, env_fine K -> history K h c -> sending_ok K h -> stype q h = Some 2 ->
  offered_from (2 :: concat (map (instr_of K) (encodings K h))) (slog K q h) /\ l_hi (tled (slog K q h)) <= zlen (2 :: concat (map (instr_of K) (encodings K h))) /\
  exists rest, 2 :: concat (map (instr_of K) (encodings K h)) = wire (slog K q h) ++ rest.
Proof. intros K h c q EF H SO ST. destruct (enc_carries K EF h c q H SO ST) as (A & B). split; [exact A|]. split; [exact B|]. exact (enc_wire K EF h c q H SO ST). Qed.
(* no encoder stream: no section has been encoded *)
Theorem C58_no_encoder_stream : forall K h c, env_fine K -> history K h c -> sending_ok K h -> (forall q, stype q h <> Some 2) -> encodings K h = [].
Proof. intros K h c EF; exact (enc_none K EF h c). Qed.

(* C55 with nothing assumed about what the encoder stream carries.  The sender: any history of calls, where the encoder
   answers as in the encoder history [tr].  The transport: the receiver has been given, of the request stream and of the
   encoder stream, a beginning of the bytes that the sender offered, in any pieces and any order. *)
Theorem C58_delivered : forall K1 h1 c1 K2 h2 c2 id ops E tr more,
  env_fine K1 -> history K1 h1 c1 -> sending_ok K1 h1 -> is_open c1 id = true ->
  QpackEncSpec.history (s_cap (ke_set K2)) ops -> erun (enc_init (s_cap (ke_set K2))) ops = Some (E, tr) -> follows tr K1 h1 ->
  history K2 h2 c2 -> client_bidi id = true -> is_open c2 id = true ->
  (forall q, peer_stream K2 h2 c2 q 2 -> stype q h1 = Some 2 /\ exists m, wire (slog K1 q h1) = heard q h2 ++ m) ->
  wire (slog K1 id h1) = given id (life id h2) ++ more ->
  in_window (s_cap (ke_set K2)) (inserted_before id h2) (inserted c2) tr id ->
  exists l unsent open j its rest, submitted (slog K1 id h1) = l ++ unsent /\ told (ke_tx K1 id) l open j its /\
    delivered its rest (content (all_shown id (life id h2))).
Proof.
  intros K1 h1 c1 K2 h2 c2 id ops E tr more EF H1 SO O1 EH R F H2 CB O2 RE W IW. destruct (reached_bytes K1 h1 c1 K2 h2 c2 tr EF H1 SO F (proj1 (proj1 EH)) H2 RE) as (es & es' & EB & EQ).
  exact (both_ends K1 h1 c1 K2 h2 c2 id ops E tr es es' more EF H1 SO O1 EH R (follows_replays K1 EF tr h1 c1 id H1 SO O1 F) H2 CB O2 EB EQ W IW).
Qed.
Theorem C58_all_delivered : forall K1 h1 c1 K2 h2 c2 id ops E tr pre vs post,
  env_fine K1 -> history K1 h1 c1 -> sending_ok K1 h1 -> is_open c1 id = true ->
  QpackEncSpec.history (s_cap (ke_set K2)) ops -> erun (enc_init (s_cap (ke_set K2))) ops = Some (E, tr) -> follows tr K1 h1 ->
  history K2 h2 c2 -> client_bidi id = true -> is_open c2 id = true ->
  (forall q, peer_stream K2 h2 c2 q 2 -> stype q h1 = Some 2 /\ exists m, wire (slog K1 q h1) = heard q h2 ++ m) ->
  wire (slog K1 id h1) = given id (life id h2) ->
  in_window (s_cap (ke_set K2)) (inserted_before id h2) (inserted c2) tr id ->
  slog K1 id h1 = pre ++ TOffer vs true :: post -> Forall (fun e => ~ adds_frames e) post ->
  (forall x, In x (life id h2) -> ConnHist.c_op x <> OShutRead id /\ forall code, ~ In (KStop id code) (c_evs x) /\ ~ In (KStream id (BvStopSending code)) (c_evs x)) ->
  (forall n, ~ waits_for c2 id n) ->
  exists j its, told (ke_tx K1 id) (submitted (slog K1 id h1)) false j its /\ ended (ke_tx K1 id) (slog K1 id h1) j /\
    drops may_miss its (content (all_shown id (life id h2))).
Proof.
  intros K1 h1 c1 K2 h2 c2 id ops E tr pre vs post EF H1 SO O1 EH R F H2 CB O2 RE W IW FN NA QT NW. destruct (reached_bytes K1 h1 c1 K2 h2 c2 tr EF H1 SO F (proj1 (proj1 EH)) H2 RE) as (es & es' & EB & EQ).
  exact (C55_all_delivered K1 h1 c1 K2 h2 c2 id ops E tr es es' pre vs post EF H1 SO O1 EH R (follows_replays K1 EF tr h1 c1 id H1 SO O1 F) H2 CB O2 EB EQ W IW FN NA QT NW).
Qed.
Print Assumptions C58_one_order.
Print Assumptions C58_frames.
Print Assumptions C58_encoder_stream.
Print Assumptions C58_no_encoder_stream.
Print Assumptions C58_delivered.
Print Assumptions C58_all_delivered.

(* ---- non-vacuity ---- *)
(* two requests, and trailers on the first one, while the encoder stream waits *)
Definition f_send : list cop := [OBindControl 2; OBindQpack 6 10; OWritev 4%nat; OAddWrite 2 17; OWritev 4%nat; OAddWrite 10 1; OWritev 4%nat; OAddWrite 6 1; ORequest 0 e_nva true; OTrailers 0 e_nva; ORequest 4 e_nva false;
  OWritev 1%nat; OAddWrite 6 19; OBlock 0; OWritev 1%nat; OAddWrite 6 19; OWritev 1%nat; OAddWrite 4 9; OUnblock 0; OWritev 8%nat; OWritev 8%nat; OAddWrite 6 19; OWritev 8%nat].
Example C58_applies : env_fine e_k /\ history e_k (run_h e_k e_send) (run_end e_k e_send) /\ sending_ok e_k (run_h e_k e_send) /\ is_open (run_end e_k e_send) 0 = true /\ stype 6 (run_h e_k e_send) = Some 2 /\
  encodings e_k (run_h e_k e_send) = [(0, 0%nat, nva_copy e_nva)] /\ wire (slog e_k 6 (run_h e_k e_send)) = 2 :: e_eb /\ follows e_tr e_k (run_h e_k e_send).
Proof.
  split; [exact e_fine|]. split; [apply run_ok; vm_compute; reflexivity|]. split; [apply sendb_ok; vm_compute; reflexivity|]. split; [vm_compute; reflexivity|]. split; [vm_compute; reflexivity|].
  assert (X : encodings e_k (run_h e_k e_send) = [(0, 0%nat, nva_copy e_nva)]) by (vm_compute; reflexivity). split; [exact X|]. split; [vm_compute; reflexivity|].
  unfold follows. rewrite X. cbn [filter encoded e_tr snd]. constructor; [|constructor]. exists [3; 129], [209; 215; 193; 16; 17], e_eb, 2. split; [vm_compute; reflexivity|vm_compute; reflexivity].
Qed.
Example C58_two : env_fine e_k /\ history e_k (run_h e_k f_send) (run_end e_k f_send) /\ sending_ok e_k (run_h e_k f_send) /\ map (is_open (run_end e_k f_send)) [0; 4] = [true; true] /\
  encodings e_k (run_h e_k f_send) = [(0, 0%nat, nva_copy e_nva); (4, 0%nat, nva_copy e_nva); (0, 1%nat, nva_copy e_nva)] /\ wire (slog e_k 6 (run_h e_k f_send)) = 2 :: e_eb ++ e_eb ++ e_eb.
Proof. split; [exact e_fine|]. split; [apply run_ok; vm_compute; reflexivity|]. split; [apply sendb_ok; vm_compute; reflexivity|]. split; [vm_compute; reflexivity|]. split; vm_compute; reflexivity. Qed.
(* the receiver: the request arrives first and waits for the encoder stream *)
Definition f_recv : list cop := [ORead 0 (firstn 6 e_wire) false; ORead 6 (2 :: firstn 8 e_eb) false; ORead 0 (skipn 6 e_wire) true; ORead 6 (skipn 8 e_eb) false].
Example C58_receiver : history (demo true) (demo_h true f_recv) (demo_end true f_recv) /\ is_open (demo_end true f_recv) 0 = true /\ peer_stream (demo true) (demo_h true f_recv) (demo_end true f_recv) 6 2 /\
  (forall q, peer_stream (demo true) (demo_h true f_recv) (demo_end true f_recv) q 2 -> stype q (run_h e_k e_send) = Some 2 /\ exists m, wire (slog e_k q (run_h e_k e_send)) = heard q (demo_h true f_recv) ++ m) /\
  wire (slog e_k 0 (run_h e_k e_send)) = given 0 (life 0 (demo_h true f_recv)) /\
  in_window 256 (inserted_before 0 (demo_h true f_recv)) (inserted (demo_end true f_recv)) e_tr 0 /\
  content (all_shown 0 (life 0 (demo_h true f_recv))) = Begin :: map Fld (as_fields e_nva) ++ [Finish] ++ map Byte [10; 11; 12; 20; 21].
Proof.
  split; [apply demo_ok; vm_compute; reflexivity|]. split; [vm_compute; reflexivity|].
  split. { split; [vm_compute; reflexivity|]. split; [|vm_compute; reflexivity]. assert (is_open (demo_end true f_recv) 6 = true) as O by (vm_compute; reflexivity). intros N. unfold is_open in O. rewrite N in O. discriminate O. }
  split. { intros q (P & F & _). assert (ConnStep.keys (demo_end true f_recv) = [6; 0]) as KS by (vm_compute; reflexivity).
    assert (In q [6; 0]) as I. { rewrite <- KS. destruct (find_stream (demo_end true f_recv) q) as [s|] eqn:E; [exact (ConnWf.in_keys _ _ _ E)|exfalso; apply F; reflexivity]. }
    destruct I as [<- |[<- |[]]]; [|vm_compute in P; discriminate P]. split; [vm_compute; reflexivity|]. exists []. vm_compute. reflexivity. }
  split; [vm_compute; reflexivity|].
  split. { intros hs sec eb ric [X|[X|[X|[]]]]; try discriminate X. injection X as _ _ _ <-. right. replace (inserted_before 0 (demo_h true f_recv)) with 0 by (vm_compute; reflexivity). replace (inserted (demo_end true f_recv)) with 2 by (vm_compute; reflexivity). change (256 / 32) with 8. lia. }
  vm_compute. reflexivity.
Qed.
