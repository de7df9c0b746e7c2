(* C51: what the application is given for a request stream is what its bytes mean (RfcStreamSpec.v) *)
From Verif Require Import Base BaseLemmas ConvModel ConvSpec QpackTabModel QpackDecModel QpackHistModel HttpModel BidiModel BidiHist BidiSpec BidiCut ControlModel GapModel TxModel ConnModel ConnStep ConnDecomp ConnHist ConnUni
  RecvSpec RfcQpackSpec RfcStreamSpec MeanStream MeanGrow MeanRx MeanSeen MeanApi MeanListen Props_Uni Props_Recv ConnDemo.
Open Scope Z_scope.

(* The bytes [es] of the peer's encoder stream insert the fields H into the dynamic table.  The callbacks for the open
   request stream id are the meaning of a prefix a of the bytes given to nghttp3_conn_read_stream for it. *)
Theorem C51_means : forall K h c id es, 0 <= s_cap (ke_set K) -> history K h c -> client_bidi id = true -> is_open c id = true -> encoder_bytes K h c es ->
  exists H a b, insertions (s_cap (ke_set K)) es H /\ given id (life id h) = a ++ b /\
    means (s_cap (ke_set K)) H (inserted_before id h) a (content (all_shown id (life id h))).
Proof. intros K h c id es A B C D E. destruct (api_means K A h c id es B C D E) as (H & a & b & X & _ & Y & Z & _). exists H, a, b. auto. Qed.
(* All the bytes have been used, unless the stream waits for the encoder stream, or the application shut down reading
   it, or was told by a stop_sending callback that the rest is ignored. *)
Theorem C51_complete : forall K h c id es, 0 <= s_cap (ke_set K) -> history K h c -> client_bidi id = true -> is_open c id = true -> encoder_bytes K h c es ->
  (forall x, In x (life id h) -> ConnHist.c_op x <> OShutRead id /\ forall code, ~ In (KStop id code) (c_evs x) /\ ~ In (KStream id (BvStopSending code)) (c_evs x)) ->
  (forall n, ~ waits_for c id n) ->
  exists H, insertions (s_cap (ke_set K)) es H /\ means_all (s_cap (ke_set K)) H (inserted_before id h) (given id (life id h)) (content (all_shown id (life id h))).
Proof.
  intros K h c id es A B C D E F G. destruct (api_means K A h c id es B C D E) as (H & a & b & X & _ & Y & Z & W). exists H. split; [exact X|]. destruct W as (-> & MA); auto; [|rewrite app_nil_r in Y; rewrite Y; exact MA].
  apply (api_listens K id C h c B D). intros x I. destruct (F x I) as [F1 F2]. split; [exact F1|]. intros (code & [Q|Q]); destruct (F2 code); contradiction.
Qed.
(* the peer's encoder stream is understood as RFC 9204 says, and [inserted] counts its insertions *)
Theorem C51_inserted : forall K h c es, 0 <= s_cap (ke_set K) -> history K h c -> encoder_bytes K h c es ->
  exists H, insertions (s_cap (ke_set K)) es H /\ inserted c = zlen H /\ forall H', insertions (s_cap (ke_set K)) es H' -> H' = H.
Proof.
  intros K h c es A B C. pose proof (enc_seen_api K h c es B C) as E. destruct (api_insertions K A h c es B C) as (H & I & N). exists H. split; [exact I|]. split; [exact N|]. intros H' I'.
  eapply insertions_fun; [|exact I'|exact I]. rewrite E. exact (sb_bytes _ _ (dec_seen K A h c B)).
Qed.
(* there is always exactly one such es *)
Theorem C51_encoder_bytes : forall K h c, history K h c -> exists es, encoder_bytes K h c es /\ forall es', encoder_bytes K h c es' -> es' = es.
Proof. intros K h c H. exists (kseen c). split; [apply enc_exists; auto|]. intros es'. apply enc_seen_api. exact H. Qed.
(* One stream (BidiHist.v; d_seen: the bytes of the encoder stream a decoder has processed), from its opening with the QPACK decoder d0 on, through every result: also when a call fails
   (a connection error) or when the stream is deleted, what was handed over is the meaning of a prefix. *)
Theorem C51_stream : forall max blk d0 n0 id http E ops, 0 <= max -> 0 <= id < 2 ^ 62 -> dec_evolves (dec_init max blk) d0 -> n0 <= next_absidx (d_ctx d0) ->
  bytes (received ops) -> hist_ok E (rx_init id http d0) ops ->
  match x_run false E (rx_init id http d0) ops with
  | XOk x evs | XGone x evs =>
    exists H a b, insertions max (d_seen (b_dec (x_st x))) H /\ received ops = a ++ b /\ means max H n0 a (content evs)
  | XErr _ evs =>
    exists H a b, insertions max (d_seen (dec_last E (rx_init id http d0) ops)) H /\ received ops = a ++ b /\ means max H n0 a (content evs)
  | XAbort => True
  end.
Proof.
  intros max blk d0 n0 id http E ops C I R N B OK. pose proof (seen_init max blk C) as S0. destruct (evolves_seen _ _ _ R S0) as (S1 & _). destruct (seen_table _ _ C S1) as (H & IN & FB & _ & Z & _).
  assert (D0 : dec_ok d0) by (split; apply S1). assert (G : GX max n0 id (b_dec (x_st (rx_init id http d0))) (rx_init id http d0) [] []).
  { exists H. split; [split; auto|]. split; [lia|]. exists [], []. split; [reflexivity|]. split; [constructor|]. split; [reflexivity|].
    eapply (M_cur _ _ _ _ _ [] [] [] [] [] []); [reflexivity|constructor| |reflexivity]. apply cf_type; [reflexivity|apply proper_nil|reflexivity|reflexivity|reflexivity]. }
  apply BidiCut.received_bytes in B. pose proof (run_GX max n0 id C ops E _ [] [] (rx_init_inv id http d0 D0 I) B OK G) as X. cbn [app] in X.
  destruct (x_run false E (rx_init id http d0) ops) as [x evs|x evs|e evs|]; cbn [GX_res app] in X; auto.
  - destruct (GX_partly _ _ _ C _ _ _ _ X) as (T & pre & suf & (_ & MI) & EQ & (a & b & EA & ME)). exists T, a, (b ++ suf). split; [exact MI|]. split; [rewrite EQ, EA, app_assoc; reflexivity|exact ME].
  - destruct X as (l1 & l2 & E1 & T & pre & suf & (_ & MI) & EQ & (a & b & EA & ME)). exists T, a, (b ++ suf ++ l2). split; [exact MI|]. split; [rewrite E1, EQ, EA, !app_assoc; reflexivity|exact ME].
  - destruct X as (l1 & l2 & E1 & T & (_ & MI) & (a & b & EA & ME)). exists T, a, (b ++ l2). split; [exact MI|]. split; [rewrite E1, EA, !app_assoc; reflexivity|exact ME].
Qed.

(* ---- non-vacuity ---- *)
Definition quiet0 (x : kcall) : bool :=
  (match ConnHist.c_op x with OShutRead j => negb (j =? 0) | _ => true end) &&
  forallb (fun e => match e with KStop j _ | KStream j (BvStopSending _) => negb (j =? 0) | _ => true end) (c_evs x).
Lemma quiet0_ok x : quiet0 x = true -> ConnHist.c_op x <> OShutRead 0 /\ forall code, ~ In (KStop 0 code) (c_evs x) /\ ~ In (KStream 0 (BvStopSending code)) (c_evs x).
Proof.
  unfold quiet0. intros Q. apply andb_prop in Q as [Q1 Q2]. rewrite forallb_forall in Q2. split; [intros E; rewrite E in Q1; discriminate|]. intros code. split; intros I; apply Q2 in I; discriminate.
Qed.
(* a request with a field from the dynamic table, inserted by the encoder stream after the request has arrived *)
Example C51_applies : history (demo true) (demo_h true ops47b) (demo_end true ops47b) /\ is_open (demo_end true ops47b) 0 = true /\
  encoder_bytes (demo true) (demo_h true ops47b) (demo_end true ops47b) [63; 225; 1; 192; 1; 97] /\
  (forall n, ~ waits_for (demo_end true ops47b) 0 n) /\
  (forall x, In x (life 0 (demo_h true ops47b)) -> ConnHist.c_op x <> OShutRead 0 /\ forall code, ~ In (KStop 0 code) (c_evs x) /\ ~ In (KStream 0 (BvStopSending code)) (c_evs x)) /\
  given 0 (life 0 (demo_h true ops47b)) = [1; 6; 2; 0; 209; 215; 193; 128] /\
  map (fun i => match i with Fld f => Some (q_name f, q_value f) | _ => None end) (content (all_shown 0 (life 0 (demo_h true ops47b)))) =
    [None; Some ([58; 109; 101; 116; 104; 111; 100], [71; 69; 84]); Some ([58; 115; 99; 104; 101; 109; 101], [104; 116; 116; 112; 115]);
     Some ([58; 112; 97; 116; 104], [47]); Some ([58; 97; 117; 116; 104; 111; 114; 105; 116; 121], [97]); None].
Proof.
  split; [apply demo_ok; vm_compute; reflexivity|]. split; [vm_compute; reflexivity|].
  split. { left. exists 2. split; [|vm_compute; reflexivity]. split; [vm_compute; reflexivity|]. split; [|vm_compute; reflexivity].
    assert (is_open (demo_end true ops47b) 2 = true) as O by (vm_compute; reflexivity). intros N. unfold is_open in O. rewrite N in O. discriminate O. }
  split. { intros n (s & F & B & _). assert ((match find_stream (demo_end true ops47b) 0 with Some s => b_blk (x_st (st_x s)) | None => false end) = false) as W by (vm_compute; reflexivity). rewrite F in W. rewrite B in W. discriminate W. }
  split. { intros x I. assert (forallb quiet0 (life 0 (demo_h true ops47b)) = true) as Q by (vm_compute; reflexivity). rewrite forallb_forall in Q. apply quiet0_ok. apply Q. exact I. }
  split; vm_compute; reflexivity.
Qed.
Print Assumptions C51_means.
Print Assumptions C51_complete.
Print Assumptions C51_inserted.
Print Assumptions C51_encoder_bytes.
Print Assumptions C51_stream.
