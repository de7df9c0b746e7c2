(* C09 (encoder), C11-C17: every history of calls of the QPACK encoder, and the decoder of
   the peer. *)
From Coq Require Import String.
From Verif Require Import Base BaseLemmas Tables QpackIntModel QpackIntSpec QpackTabModel QpackTabSpec QpackDynSpec QpackDynProofs
  Chunk QpackDecModel QpackHistModel QpackHistSpec QpackHistProofs QpackEncModel QpackEncSpec QpackEncProofs QpackNvProofs QpackShrinkProofs
  QpackStreamProofs QpackFeedProofs QpackWireProofs QpackEncHistProofs QpackPeerProofs QpackEndProofs.

(* ---- a history used in the examples ---- *)
Definition x_one := mk_nv (bs "x-one"%string) (bs "value one"%string) FLAG_TRY_INDEX.
Definition x_auth := mk_nv (bs "authorization"%string) (bs "secret"%string) FLAG_NEVER_INDEX.
Definition x_path := mk_nv (bs ":path"%string) (bs "/index.html"%string) 0.
Definition x_ops : list eop := [ESetCap 4096; ESetBlocked 10; EEncode 0 [x_one; x_auth; x_path]; EEncode 4 [x_path; x_one]].
Definition x_sec0 : list Z := [2; 128; 16; 127; 69; 132; 65; 73; 97; 83; 81; 136; 96; 213; 72; 95; 43; 206; 154; 104].
Definition x_sec4 : list Z := [2; 0; 81; 136; 96; 213; 72; 95; 43; 206; 154; 104; 128].
Definition x_eb : list Z := [63; 225; 31; 100; 242; 177; 234; 47; 135; 238; 58; 45; 42; 135; 168; 191].
Definition x_tr : list (eop * eres) :=
  [(ESetCap 4096, ErDone); (ESetBlocked 10, ErDone); (EEncode 0 [x_one; x_auth; x_path], ErSection x_sec0 x_eb 1);
   (EEncode 4 [x_path; x_one], ErSection x_sec4 [] 1)].
Lemma x_history : history 4096 x_ops.
Proof.
  split; [lia|]. split; [|reflexivity]. unfold x_ops. repeat (constructor; cbn [eop_ok]); try lia; try discriminate; try reflexivity.
  all: unfold bytes; repeat (constructor; unfold is_byte; [lia|]); constructor.
Qed.
Example x_run : option_map snd (erun (enc_init 4096) x_ops) = Some x_tr.
Proof. vm_compute. reflexivity. Qed.

(* C17: no history of calls makes the encoder fail an assertion or leave its tables *)
Theorem C17_encoder_never_aborts : forall hard ops, history hard ops -> erun (enc_init hard) ops <> None.
Proof.
  intros hard ops (H1 & H2 & H3) E. destruct (erun_inv 0 hard ops H1 (enc_init hard) [] _ (einv_init 0 hard ltac:(lia)) H2 H3) as (e & tr & V & E1 & _). congruence.
Qed.
Print Assumptions C17_encoder_never_aborts.

(* C17: the Known Received Count is what the acknowledgements say and never exceeds the
   number of insertions *)
Theorem C17_known_at_most_inserted : forall hard ops E tr, history hard ops -> erun (enc_init hard) ops = Some (E, tr) ->
  enc_krcnt E = v_known (view_of tr) /\ 0 <= v_known (view_of tr) <= next_absidx (enc_ctx E).
Proof.
  intros hard ops E tr (H1 & H2 & H3) Er. destruct (from_start 0 hard ops E tr H1 H2 H3 Er) as (V & I & _).
  pose proof (rl_known _ _ _ (ei_rl _ _ _ _ _ I)) as K. pose proof (si_k _ _ _ _ (proj1 (ei_ds _ _ _ _ _ I))). lia.
Qed.
Print Assumptions C17_known_at_most_inserted.

(* C17: the bytes of the decoder stream, however delivered, are read as the instructions of
   RFC 9204 section 4.4; an instruction is carried out exactly if it is acceptable; reading
   fails exactly at an instruction that is not acceptable or whose integer is too large *)
Theorem C17_feedback_read : forall hard ops E tr src, history hard ops -> erun (enc_init hard) ops = Some (E, tr) ->
  no_error tr -> bad (enc_ctx E) = false -> bytes src -> enc_unint E + zlen src <= MAX_DECODERLEN ->
  let n := next_absidx (enc_ctx E) in let v := view_of tr in
  exists E' res evs con rest, estep E (EFeed src) = Some (E', res) /\ fed_bytes ops ++ src = con ++ rest /\
    rfc_dstream con (map instr_of (carried_out tr ++ evs)) /\ accepted n v evs /\
    ((res = ErFed evs /\ too_large rest) \/
     (res = ErErr ERR_QPACK_DECODER_STREAM_ERROR evs /\
       ((exists op k r, rfc_dinstr rest = Some (instr_of (op, k), r) /\ ~ acceptable n (fold_left feedback evs v) (op, k)) \/
        too_large rest))).
Proof.
  intros hard ops E tr src (H1 & H2 & H3) Er Ne Bd Bs Le n v. destruct (from_start 0 hard ops E tr H1 H2 H3 Er) as (V & I & <- & _).
  exact (feed_step 0 hard tr E V src I Bs Ne Bd Le).
Qed.
Print Assumptions C17_feedback_read.
Example C17_feedback_ex : (* acknowledgement of stream 0 taken, of stream 8 refused, zero increment refused *)
  option_map (fun p => map snd (snd p)) (erun (enc_init 4096) (x_ops ++ [EFeed [128; 68]; EFeed [136]])) =
    Some (map snd x_tr ++ [ErFed [(DsAck, 0); (DsCancel, 4)]; ErErr ERR_QPACK_DECODER_STREAM_ERROR []]) /\
  option_map (fun p => map snd (snd p)) (erun (enc_init 4096) (x_ops ++ [EFeed [0]])) =
    Some (map snd x_tr ++ [ErErr ERR_QPACK_DECODER_STREAM_ERROR []]) /\
  option_map (fun p => (v_known (view_of (snd p)), v_out (view_of (snd p)))) (erun (enc_init 4096) (x_ops ++ [EFeed [128; 68]])) = Some (1, []).
Proof. vm_compute. auto. Qed.

(* C17: how the decoder stream is cut does not matter *)
Theorem C17_decoder_stream_cut : forall hard ops E tr ps, history hard ops -> erun (enc_init hard) ops = Some (E, tr) ->
  bad (enc_ctx E) = false -> bytes (concat ps) -> enc_unint E + zlen (concat ps) <= MAX_DECODERLEN ->
  match feed_decoder E ps, read_decoder E (concat ps) with
  | (e1, Ok n1, ev1), (e2, Ok n2, ev2) => e1 = e2 /\ n1 = n2 /\ ev1 = ev2
  | (e1, Err x1, ev1), (e2, Err x2, ev2) => x1 = x2 /\ same_enc e1 e2 /\ ev1 = ev2
  | _, _ => False
  end.
Proof.
  intros hard ops E tr ps (H1 & H2 & H3) Er Bd Bs Le. destruct (from_start 0 hard ops E tr H1 H2 H3 Er) as (V & I & _).
  exact (feed_decoder_concat hard ps E (view_of tr) (ei_ds _ _ _ _ _ I) (ei_rl _ _ _ _ _ I) Bs Bd Le).
Qed.
Print Assumptions C17_decoder_stream_cut.
Example C17_cut_ex : (* a cancellation of stream 300, in three pieces *)
  (let '(_, r, evs) := feed_decoder (enc_init 4096) [[127; 237]; [1]; [64]] in (r, evs)) = (Ok 4, [(DsCancel, 300); (DsCancel, 0)]).
Proof. vm_compute. reflexivity. Qed.

(* C09, encoder side: the entries held never take more than the capacity the encoder was
   created with; after encoding a section they take at most the current capacity, unless
   entries are kept for sections neither acknowledged nor cancelled *)
Theorem C09_encoder_table_fits : forall hard ops E tr, history hard ops -> erun (enc_init hard) ops = Some (E, tr) ->
  tab_size (contents (enc_ctx E)) <= hard.
Proof.
  intros hard ops E tr (H1 & H2 & H3) Er. destruct (from_start 0 hard ops E tr H1 H2 H3 Er) as (V & I & _). exact (own_size _ _ _ _ _ I).
Qed.
Print Assumptions C09_encoder_table_fits.
Theorem C09_encoder_obeys_capacity : forall hard ops id l E tr sec eb ric, history hard (ops ++ [EEncode id l]) ->
  erun (enc_init hard) (ops ++ [EEncode id l]) = Some (E, tr ++ [(EEncode id l, ErSection sec eb ric)]) ->
  v_out (view_of tr) = [] -> tab_size (contents (enc_ctx E)) <= max_cap (enc_ctx E).
Proof.
  intros hard ops id l E tr sec eb ric (H1 & H2 & H3) Er Vo. destruct (last_encode 0 hard ops id l E tr sec eb ric H1 H2 H3 Er) as (e & V & V' & Eo & I & I').
  destruct (eo_link _ _ _ _ _ _ _ _ _ _ _ Eo) as [Sy|(_ & G & _)].
  - destruct (sy_c _ _ Sy) as [W Le]. pose proof (wf_size _ W) as Z1. rewrite tsize_contents in Z1. lia.
  - exfalso. exact (stuck_outstanding _ _ _ _ _ _ I G Vo).
Qed.
Print Assumptions C09_encoder_obeys_capacity.
Example C09_encoder_ex : (* capacity lowered after an acknowledgement: the table is emptied *)
  option_map (fun p => (tab_size (contents (enc_ctx (fst p))), max_cap (enc_ctx (fst p)))) (erun (enc_init 4096) x_ops) = Some (46, 4096) /\
  option_map (fun p => (tab_size (contents (enc_ctx (fst p))), max_cap (enc_ctx (fst p))))
    (erun (enc_init 4096) (x_ops ++ [EFeed [128; 132]; ESetCap 40; EEncode 8 []])) = Some (0, 40).
Proof. vm_compute. auto. Qed.
(* C09: the capacity last set through the API is not always the one obeyed: a capacity set,
   replaced by a larger one and set again before the next section is encoded *)
Theorem C09_last_capacity_refuted : ~ (forall hard ops n id l E tr, history hard (ops ++ [ESetCap n; EEncode id l]) ->
  erun (enc_init hard) (ops ++ [ESetCap n; EEncode id l]) = Some (E, tr) -> max_cap (enc_ctx E) <= n).
Proof.
  intros H. destruct (erun (enc_init 4096) ([ESetCap 2048; ESetCap 3000] ++ [ESetCap 2048; EEncode 0 []])) as [[E tr]|] eqn:Er; [|discriminate Er].
  assert (Hh : history 4096 ([ESetCap 2048; ESetCap 3000] ++ [ESetCap 2048; EEncode 0 []])).
  { split; [lia|]. split; [|reflexivity]. cbn [app]. repeat constructor; cbn; lia. }
  specialize (H 4096 [ESetCap 2048; ESetCap 3000] 2048 0 [] E tr Hh Er). vm_compute in Er. injection Er as <- <-. vm_compute in H. apply H. reflexivity.
Qed.
Print Assumptions C09_last_capacity_refuted.

(* ---- the peer ---- *)
(* a history of decoder calls that delivered the bytes [got] of the encoder stream *)
Definition peer (hard blocked : Z) (dops : list dop) (w : dworld) (dtr : list (dop * dres)) (got : list Z) : Prop :=
  Forall dop_ok dops /\ drun (dw_init hard blocked) dops = Some (w, dtr) /\ error_free dtr /\ received dops = got.

(* C11: every byte of the encoder stream is accepted, at whatever point and in whatever
   pieces it is delivered (up to the limit on uninterrupted bytes) *)
Theorem C11_stream_accepted : forall hard blocked ops E tr dops w dtr got src more, history hard ops -> erun (enc_init hard) ops = Some (E, tr) ->
  enc_bytes tr = got ++ src ++ more -> peer hard blocked dops w dtr got -> d_unint (w_dec w) + zlen src <= MAX_ENCODERLEN ->
  exists w', dstep w (DEnc src) = Some (w', DrDone).
Proof.
  intros hard blocked ops E tr dops w dtr got src more (H1 & H2 & H3) Er Eq (P1 & P2 & P3 & <-) Le.
  destruct (from_start blocked hard ops E tr H1 H2 H3 Er) as (V & I & _). exact (stream_accepted hard blocked tr E V dops w dtr src more H1 I P1 P2 P3 Eq Le).
Qed.
Print Assumptions C11_stream_accepted.

(* C11: once everything written has been delivered, the decoder has every entry of the
   encoder at the same absolute index; it may still have older ones *)
Theorem C11_same_entries : forall hard blocked ops E tr dops w dtr, history hard ops -> erun (enc_init hard) ops = Some (E, tr) ->
  peer hard blocked dops w dtr (enc_bytes tr) ->
  insert_count w = next_absidx (enc_ctx E) /\ exists older, contents (d_ctx (w_dec w)) = contents (enc_ctx E) ++ older.
Proof.
  intros hard blocked ops E tr dops w dtr (H1 & H2 & H3) Er (P1 & P2 & P3 & P4).
  destruct (from_start blocked hard ops E tr H1 H2 H3 Er) as (V & I & _). exact (proj2 (same_table hard blocked tr E V dops w dtr H1 I P1 P2 P3 (eq_sym P4))).
Qed.
Print Assumptions C11_same_entries.
(* C11: just after a section has been encoded the tables and capacities are the same, if the
   encoder's table fits its capacity (it does if nothing is outstanding, C09) *)
Theorem C11_same_after_encode : forall hard blocked ops id l E tr sec eb ric dops w dtr, history hard (ops ++ [EEncode id l]) ->
  erun (enc_init hard) (ops ++ [EEncode id l]) = Some (E, tr ++ [(EEncode id l, ErSection sec eb ric)]) ->
  tab_size (contents (enc_ctx E)) <= max_cap (enc_ctx E) ->
  peer hard blocked dops w dtr (enc_bytes (tr ++ [(EEncode id l, ErSection sec eb ric)])) ->
  contents (d_ctx (w_dec w)) = contents (enc_ctx E) /\ max_cap (d_ctx (w_dec w)) = max_cap (enc_ctx E) /\ insert_count w = next_absidx (enc_ctx E).
Proof.
  intros hard blocked ops id l E tr sec eb ric dops w dtr (H1 & H2 & H3) Er Ts (P1 & P2 & P3 & P4).
  destruct (last_encode blocked hard ops id l E tr sec eb ric H1 H2 H3 Er) as (e & V & V' & Eo & I & I').
  destruct (same_table hard blocked _ E V' dops w dtr H1 I' P1 P2 P3 (eq_sym P4)) as (Dc & Ic & _).
  pose proof (vl_wf _ _ _ (ei_vl _ _ _ _ _ I')) as W. pose proof (wf_size _ W) as Z1. rewrite tsize_contents in Z1.
  pose proof (not_stuck _ _ _ (eo_link _ _ _ _ _ _ _ _ _ _ _ Eo) ltac:(lia)) as Sy. rewrite Dc, (sy_tab _ _ Sy), (sy_max _ _ Sy). auto.
Qed.
Print Assumptions C11_same_after_encode.

Definition x_dops : list dop := [DEnc (firstn 5 x_eb); DEnc (skipn 5 x_eb)].
Lemma x_peer : exists w dtr, peer 4096 10 x_dops w dtr (enc_bytes x_tr) /\ insert_count w = 1 /\ contents (d_ctx (w_dec w)) = [(nv_name x_one, nv_value x_one)] /\
  max_cap (d_ctx (w_dec w)) = 4096 /\ dbuf_overflow (w_dec w) = false /\
  map got_field (fst (decode_section (w_dec w) (sctx_init 0) x_sec0 true)) =
    [(bs "x-one"%string, bs "value one"%string, false); (bs "authorization"%string, bs "secret"%string, true); (bs ":path"%string, bs "/index.html"%string, false)].
Proof.
  eexists. eexists. split.
  - split; [repeat constructor; unfold is_byte; lia|]. split; [vm_compute; reflexivity|]. split; [|reflexivity]. intros o e [X|[X|[]]]; discriminate X.
  - vm_compute. auto.
Qed.

(* C12: a section decodes to exactly the fields encoded *)
Theorem C12_section_decodes : forall hard blocked ops E tr id hs sec eb ric dops w dtr got more, history hard ops -> erun (enc_init hard) ops = Some (E, tr) ->
  In (EEncode id hs, ErSection sec eb ric) tr -> ric = 0 \/ In (mk_sent id hs sec ric) (v_out (view_of tr)) ->
  enc_bytes tr = got ++ more -> peer hard blocked dops w dtr got -> ric <= insert_count w -> dbuf_overflow (w_dec w) = false ->
  decodes_to (w_dec w) (sctx_init id) sec hs id ric.
Proof.
  intros hard blocked ops E tr id hs sec eb ric dops w dtr got more (H1 & H2 & H3) Er Hi Ho Eq (P1 & P2 & P3 & <-) Hr Dv.
  destruct (from_start blocked hard ops E tr H1 H2 H3 Er) as (V & I & _ & Nx).
  assert (So : section_of hard E (mk_sent id hs sec ric)).
  { destruct Ho as [-> | Ho]; [exact (static_section _ _ _ _ _ _ _ _ _ I Hi)|exact (proj1 (outstanding_section _ _ _ _ _ _ H1 I Nx Ho))]. }
  exact (section_decodes hard blocked tr E V dops w dtr more _ H1 I Nx P1 P2 P3 Eq So Hr (or_intror Dv)).
Qed.
Print Assumptions C12_section_decodes.
Example C12_ex : In (mk_sent 0 [x_one; x_auth; x_path] x_sec0 1) (v_out (view_of x_tr)) /\
  exists w dtr, peer 4096 10 x_dops w dtr (enc_bytes x_tr) /\ 1 <= insert_count w /\ dbuf_overflow (w_dec w) = false.
Proof.
  split; [left; reflexivity|]. destruct x_peer as (w & dtr & P & C1 & _ & _ & C2 & _). exists w, dtr. split; [auto|]. split; [lia|auto].
Qed.

(* C12: a section that needs entries not yet received waits for them, without output, and then
   decodes to exactly the fields encoded.  The last hypothesis on the insert counts is the
   range in which the encoded Required Insert Count is unambiguous *)
Theorem C12_section_waits : forall hard blocked ops E tr s dops w dtr got more, history hard ops -> erun (enc_init hard) ops = Some (E, tr) ->
  In s (v_out (view_of tr)) -> enc_bytes tr = got ++ more -> peer hard blocked dops w dtr got ->
  insert_count w < o_ric s <= insert_count w + hard / 32 ->
  exists st rest, decode_section (w_dec w) (sctx_init (o_id s)) (o_bytes s) true = ([], RqBlocked st rest) /\
    forall dops2 w2 dtr2 got2 more2, enc_bytes tr = got2 ++ more2 -> peer hard blocked dops2 w2 dtr2 got2 -> o_ric s <= insert_count w2 ->
      dbuf_overflow (w_dec w2) = false -> decodes_to (w_dec w2) st rest (o_fields s) (o_id s) (o_ric s).
Proof.
  intros hard blocked ops E tr s dops w dtr got more (H1 & H2 & H3) Er Ho Eq (P1 & P2 & P3 & <-) Hr.
  destruct (from_start blocked hard ops E tr H1 H2 H3 Er) as (V & I & _ & Nx).
  destruct (section_blocks hard blocked tr E V dops w dtr more s H1 I Nx P1 P2 P3 Eq (proj1 (outstanding_section _ _ _ _ _ _ H1 I Nx Ho)) Hr) as (st & rest & B1 & B2 & B3 & B4).
  exists st, rest. split; [auto|]. intros dops2 w2 dtr2 got2 more2 Eq2 (Q1 & Q2 & Q3 & <-). eauto.
Qed.
Print Assumptions C12_section_waits.
Example C12_waits_ex : (* nothing received yet *)
  exists st rest, decode_section (dec_init 4096 10) (sctx_init 0) x_sec0 true = ([], RqBlocked st rest) /\ rest <> [].
Proof. eexists. eexists. split; [vm_compute; reflexivity|discriminate]. Qed.
(* C12: outside that range it fails.  The encoder evicts entries whose insertion has not been
   acknowledged (here after the peer cancelled a stream), so that a section may need more
   insertions than the decoder can tell from the encoded Required Insert Count *)
Definition y_f (n : Z) : nv := mk_nv [120] [n] FLAG_TRY_INDEX.
Definition y_ops : list eop := [ESetCap 128; ESetBlocked 10; EEncode 0 [y_f 1; y_f 2; y_f 3]; EFeed [64]; EEncode 4 [y_f 4; y_f 5; y_f 6]].
Theorem C12_any_delay_refuted : ~ (forall hard blocked ops E tr s dops w dtr got more, history hard ops -> erun (enc_init hard) ops = Some (E, tr) ->
  In s (v_out (view_of tr)) -> enc_bytes tr = got ++ more -> peer hard blocked dops w dtr got -> insert_count w < o_ric s ->
  exists st rest, decode_section (w_dec w) (sctx_init (o_id s)) (o_bytes s) true = ([], RqBlocked st rest)).
Proof.
  intros H. let r := eval vm_compute in (erun (enc_init 128) y_ops) in
    match r with Some (?E, ?tr) => assert (Er : erun (enc_init 128) y_ops = Some (E, tr)) by (vm_compute; reflexivity); set (tr0 := tr) in * end.
  assert (Hh : history 128 y_ops).
  { split; [lia|]. split; [|reflexivity]. unfold y_ops. repeat (constructor; cbn [eop_ok]); try lia; try discriminate; try reflexivity.
    all: unfold bytes; repeat (constructor; unfold is_byte; [lia|]); constructor. }
  assert (Hp : peer 128 10 [] (dw_init 128 10) [] []) by (split; [constructor|]; split; [reflexivity|]; split; [intros o e []|reflexivity]).
  let r := eval vm_compute in (v_out (view_of tr0)) in match r with ?s :: _ => assert (Vo : In s (v_out (view_of tr0))) by (vm_compute; left; reflexivity) end.
  specialize (H 128 10 y_ops _ tr0 _ [] _ [] [] (enc_bytes tr0) Hh Er Vo eq_refl Hp eq_refl).
  destruct H as (st & rest & X). vm_compute in X. discriminate X.
Qed.
Print Assumptions C12_any_delay_refuted.

(* C13: the entries a section refers to stay in the encoder's table as long as the section is
   neither acknowledged nor cancelled: a decoder that knows just that table decodes it *)
Theorem C13_references_kept : forall hard ops E tr s, history hard ops -> erun (enc_init hard) ops = Some (E, tr) ->
  In s (v_out (view_of tr)) -> decodes_to (knowing (enc_ctx E)) (sctx_init (o_id s)) (o_bytes s) (o_fields s) (o_id s) (o_ric s).
Proof.
  intros hard ops E tr s (H1 & H2 & H3) Er Ho. destruct (from_start 0 hard ops E tr H1 H2 H3 Er) as (V & I & _ & Nx).
  exact (section_own _ _ _ _ _ _ H1 I Nx (proj1 (outstanding_section _ _ _ _ _ _ H1 I Nx Ho))).
Qed.
Print Assumptions C13_references_kept.
Example C13_ex : (* capacity lowered to 0 while both sections are outstanding, a section encoded, then everything acknowledged *)
  option_map (fun p => (contents (enc_ctx (fst p)), map o_id (v_out (view_of (snd p))))) (erun (enc_init 4096) (x_ops ++ [ESetCap 0; EEncode 8 [x_path]])) =
    Some ([(nv_name x_one, nv_value x_one)], [0; 4]) /\
  option_map (fun p => (contents (enc_ctx (fst p)), map o_id (v_out (view_of (snd p))))) (erun (enc_init 4096) (x_ops ++ [ESetCap 0; EFeed [128; 132]; EEncode 8 [x_path]])) =
    Some ([], []).
Proof. vm_compute. auto. Qed.

(* C14: the streams blocked are those counted, and there are never more than allowed *)
Theorem C14_blocked_limit : forall hard ops E tr, history hard ops -> erun (enc_init hard) ops = Some (E, tr) ->
  exists ids, NoDup ids /\ (forall id, In id ids <-> stream_blocked (view_of tr) id) /\
    zlen ids = zlen (enc_blocked E) /\ zlen ids <= blocked_limit ops.
Proof.
  intros hard ops E tr (H1 & H2 & H3) Er. destruct (from_start 0 hard ops E tr H1 H2 H3 Er) as (V & I & Em & _).
  destruct (blocked_list _ _ _ _ _ I) as (ids & N & B & L). exists ids. split; [auto|]. split; [auto|]. split; [auto|].
  pose proof (ei_bl _ _ _ _ _ I) as X. rewrite Em in X. lia.
Qed.
Print Assumptions C14_blocked_limit.
Example C14_ex : (* limit 1: the second stream gets a literal *)
  option_map (fun p => (zlen (enc_blocked (fst p)), map (fun s => (o_id s, o_ric s)) (v_out (view_of (snd p)))))
    (erun (enc_init 4096) [ESetCap 4096; ESetBlocked 1; EEncode 0 [x_one]; EEncode 4 [x_one]; EEncode 0 [x_one; y_f 7]]) = Some (1, [(0, 1); (0, 2)]).
Proof. vm_compute. reflexivity. Qed.

(* C15: whatever is in the table was submitted as a field that is not sensitive *)
Theorem C15_sensitive_not_stored : forall hard ops E tr f, history hard ops -> erun (enc_init hard) ops = Some (E, tr) ->
  In f (contents (enc_ctx E)) -> exists h, In h (submitted ops) /\ sensitive h = false /\ f = (nv_name h, nv_value h).
Proof.
  intros hard ops E tr f (H1 & H2 & H3) Er Hf. destruct (from_start 0 hard ops E tr H1 H2 H3 Er) as (V & I & Em & _).
  rewrite <- Em. exact (own_stored _ _ _ _ _ _ I Hf).
Qed.
Print Assumptions C15_sensitive_not_stored.
(* C15: in every section each field has a representation of RFC 9204 section 4.5 that, for a
   sensitive field, is not an index of a full line, and whose N bit is the flag *)
Theorem C15_representations : forall hard ops E tr id hs sec eb ric, history hard ops -> erun (enc_init hard) ops = Some (E, tr) ->
  In (EEncode id hs, ErSection sec eb ric) tr ->
  exists r ks, after_prefix sec = Some r /\ rfc_lines r ks /\ Forall2 line_good hs ks.
Proof.
  intros hard ops E tr id hs sec eb ric (H1 & H2 & H3) Er Hi. destruct (from_start 0 hard ops E tr H1 H2 H3 Er) as (V & I & _).
  pose proof (ei_sec _ _ _ _ _ I) as F. rewrite Forall_forall in F. destruct (F _ Hi) as (_ & _ & X & _). exact X.
Qed.
Print Assumptions C15_representations.
Example C15_ex : after_prefix x_sec0 = Some (skipn 2 x_sec0) /\ rfc_lines (skipn 2 x_sec0) [LIndexed; LNameRef true; LNameRef false] /\
  sensitive x_auth = true /\ sensitive x_one = false.
Proof.
  split; [reflexivity|]. split; [|split; reflexivity]. repeat (econstructor; [vm_compute; reflexivity|]). constructor.
Qed.

(* C16: the Required Insert Count is reconstructed exactly, and nothing else is accepted *)
Theorem C16_exact : forall c ric, 0 < hard_max c / 32 -> 1 <= ric -> next_absidx c - hard_max c / 32 < ric <= next_absidx c + hard_max c / 32 ->
  reconstruct_ricnt c (ric mod (2 * (hard_max c / 32)) + 1) = Ok ric.
Proof. intros c ric H1 H2 H3. exact (reconstruct_encoded c _ ric eq_refl H1 H2 H3). Qed.
Print Assumptions C16_exact.
Theorem C16_sound : forall c n r, 0 <= hard_max c -> 0 <= next_absidx c -> 0 <= n -> reconstruct_ricnt c n = Ok r ->
  let m := hard_max c / 32 in
  (n = 0 /\ r = 0) \/ (1 <= n <= 2 * m /\ next_absidx c - m < r <= next_absidx c + m /\ 0 < r /\ r mod (2 * m) + 1 = n).
Proof. exact reconstruct_sound. Qed.
Print Assumptions C16_sound.
Example C16_ex : let c := mk_ctx [] 0 0 128 128 0 1000 false in
  reconstruct_ricnt c (1003 mod 8 + 1) = Ok 1003 /\ reconstruct_ricnt c (997 mod 8 + 1) = Ok 997 /\ reconstruct_ricnt c 9 = Err ERR_QPACK_DECOMPRESSION_FAILED /\
  reconstruct_ricnt (mk_ctx [] 0 0 128 128 0 0 false) 1 = Err ERR_QPACK_DECOMPRESSION_FAILED.
Proof. vm_compute. auto. Qed.
(* C16: with an encoder created for a smaller capacity than the decoder advertised, as the API
   (and nghttp3_conn) allows, a section is misread although all entries were received *)
Definition z_ops : list eop := [ESetCap 64; ESetBlocked 10; EEncode 0 [y_f 1]; EAckAll; EEncode 4 [y_f 2]; EAckAll; EEncode 8 [y_f 3]; EAckAll; EEncode 12 [y_f 4]].
Theorem C16_mixed_capacities_refuted : ~ (forall hard hard2 blocked ops E tr s dops w dtr, history hard ops -> erun (enc_init hard) ops = Some (E, tr) ->
  In s (v_out (view_of tr)) -> hard <= hard2 < 2 ^ 62 -> peer hard2 blocked dops w dtr (enc_bytes tr) ->
  decodes_to (w_dec w) (sctx_init (o_id s)) (o_bytes s) (o_fields s) (o_id s) (o_ric s)).
Proof.
  intros H. let r := eval vm_compute in (erun (enc_init 64) z_ops) in
    match r with Some (?E, ?tr) => assert (Er : erun (enc_init 64) z_ops = Some (E, tr)) by (vm_compute; reflexivity); set (tr0 := tr) in * end.
  let r := eval vm_compute in (drun (dw_init 4096 10) [DEnc (enc_bytes tr0)]) in
    match r with Some (?w, ?dtr) => assert (Dr : drun (dw_init 4096 10) [DEnc (enc_bytes tr0)] = Some (w, dtr)) by (vm_compute; reflexivity); set (w0 := w) in *; set (dtr0 := dtr) in * end.
  assert (Hh : history 64 z_ops).
  { split; [lia|]. split; [|reflexivity]. unfold z_ops. repeat (constructor; cbn [eop_ok]); try lia; try discriminate; try reflexivity.
    all: unfold bytes; repeat (constructor; unfold is_byte; [lia|]); constructor. }
  let r := eval vm_compute in (v_out (view_of tr0)) in match r with ?s :: _ => assert (Vo : In s (v_out (view_of tr0))) by (vm_compute; left; reflexivity) end.
  assert (Hp : peer 4096 10 [DEnc (enc_bytes tr0)] w0 dtr0 (enc_bytes tr0)).
  { split; [repeat constructor; unfold is_byte; lia|]. split; [exact Dr|]. split; [|reflexivity]. intros o e [X|[]]; discriminate X. }
  specialize (H 64 4096 10 z_ops _ tr0 _ _ w0 dtr0 Hh Er Vo ltac:(lia) Hp).
  destruct H as (qs & d' & s' & X & _). vm_compute in X. discriminate X.
Qed.
Print Assumptions C16_mixed_capacities_refuted.
