(* C09 (decoder), C10, C18, C45: every history of calls of the QPACK decoder. *)
From Coq Require Import String.
From Verif Require Import Base BaseLemmas Tables QpackIntModel QpackIntSpec QpackTabModel QpackTabSpec QpackDynSpec QpackDynProofs
  Chunk QpackDecModel QpackReadProofs QpackDecProofs QpackSecProofs QpackHistModel QpackHistSpec QpackHistProofs QpackCutProofs.

(* a history used in the examples: capacity 100, insert "a: bb" (literal), a section on
   stream 4 that refers to it, cut in two, then a cancelled stream 8 and a flush *)
Definition ex_ops : list dop :=
  [DEnc [63; 69; 65]; DEnc [97; 2; 98; 98]; DReq 4 [2] false; DReq 4 [0; 128] true; DReq 4 [] true; DCancel 8; DFlush].
Lemma ex_ops_ok : Forall dop_ok ex_ops.
Proof. repeat constructor; unfold is_byte; cbn; lia. Qed.
Example ex_run : option_map snd (drun (dw_init 4096 0) ex_ops) =
  Some [(DEnc [63; 69; 65], DrDone); (DEnc [97; 2; 98; 98], DrDone); (DReq 4 [2] false, DrDone);
        (DReq 4 [0; 128] true, DrEmit (mk_qnv [97] [98; 98] (-1) 0) []); (DReq 4 [] true, DrFinal 4 1);
        (DCancel 8, DrDone); (DFlush, DrBytes [132; 72])].
Proof. vm_compute. reflexivity. Qed.

(* C10: no sequence of calls makes the decoder fail an assertion or leave its tables *)
Theorem C10_decoder_never_aborts : forall hard blocked ops,
  0 <= hard -> Forall dop_ok ops -> drun (dw_init hard blocked) ops <> None.
Proof.
  intros hard blocked ops H Ho E. destruct (drun_winv ops _ (winv_init hard blocked H) Ho) as (w & tr & E2 & _). congruence.
Qed.
Print Assumptions C10_decoder_never_aborts.

(* C10: after any history, delivering encoder stream bytes in pieces gives the decoder
   the same state and the same result as delivering them at once *)
Theorem C10_encoder_stream_cut : forall hard blocked ops w tr ps,
  0 <= hard -> Forall dop_ok ops -> drun (dw_init hard blocked) ops = Some (w, tr) ->
  bytes (concat ps) -> bad (d_ctx (w_dec w)) = false -> d_unint (w_dec w) + zlen (concat ps) <= MAX_ENCODERLEN ->
  match feed_encoder (w_dec w) ps, read_encoder (w_dec w) (concat ps) with
  | (d1, Ok n1), (d2, Ok n2) => d1 = d2 /\ n1 = n2
  | (d1, Err e1), (d2, Err e2) => e1 = e2 /\ same_dec d1 d2
  | _, _ => False
  end.
Proof.
  intros hard blocked ops w tr ps H Ho E Hb B L. destruct (drun_winv ops _ (winv_init hard blocked H) Ho) as (w2 & tr2 & E2 & W & _).
  rewrite E in E2. injection E2 as <- <-. apply feed_encoder_concat; auto. apply W.
Qed.
Print Assumptions C10_encoder_stream_cut.
Example C10_encoder_stream_cut_ex :
  let ps := [[63]; [69; 65; 97]; [2; 98]; [98]] in
  snd (feed_encoder (dec_init 4096 0) ps) = Ok 7 /\ contents (d_ctx (fst (feed_encoder (dec_init 4096 0) ps))) = [([97], [98; 98])].
Proof. vm_compute. split; reflexivity. Qed.

(* C10: the same for a field section: fields, final result and stream state *)
Theorem C10_section_cut : forall hard blocked ops w tr id a b fin,
  0 <= hard -> Forall dop_ok ops -> drun (dw_init hard blocked) ops = Some (w, tr) ->
  0 <= id < 2 ^ 62 -> bytes a -> bytes b -> bad (d_ctx (w_dec w)) = false ->
  let d := w_dec w in let s := sget (w_str w) id in
  decode_section d s (a ++ b) fin =
  match decode_section d s a false with
  | (vs, RqNone s') => let (vs', r) := decode_section d s' b fin in (vs ++ vs', r)
  | (vs, RqBlocked s' rest) => (vs, RqBlocked s' (rest ++ b))
  | r => r
  end.
Proof.
  intros hard blocked ops w tr id a b fin H Ho E Hid Ha Hb B d s.
  destruct (drun_winv ops _ (winv_init hard blocked H) Ho) as (w2 & tr2 & E2 & W & _).
  rewrite E in E2. injection E2 as <- <-. apply decode_section_cut; auto; [apply W|]. exact (proj1 (wi_str w W id Hid)).
Qed.
Print Assumptions C10_section_cut.
Example C10_section_cut_ex :
  map (fun v => (q_name v, q_value v)) (fst (decode_section (dec_init 4096 0) (sctx_init 0) [0; 0; 209; 0x51; 1; 47] true)) =
    [(bs ":method"%string, bs "GET"%string); (bs ":path"%string, bs "/"%string)] /\
  (exists s, snd (decode_section (dec_init 4096 0) (sctx_init 0) [0; 0; 209; 0x51; 1; 47] true) = RqFinal (dec_init 4096 0) s) /\
  map (fun v => (q_name v, q_value v)) (fst (decode_section (dec_init 4096 0) (sctx_init 0) [0; 0; 209; 0x51] false)) =
    [(bs ":method"%string, bs "GET"%string)].
Proof. split; [vm_compute; reflexivity|]. split; [eexists; vm_compute; reflexivity|vm_compute; reflexivity]. Qed.

(* C09, decoder side: the entries held never take more than the capacity set by the peer,
   which never exceeds what the decoder advertised *)
Theorem C09_decoder_table_fits : forall hard blocked ops w tr,
  0 <= hard -> Forall dop_ok ops -> drun (dw_init hard blocked) ops = Some (w, tr) ->
  tab_size (contents (d_ctx (w_dec w))) <= max_cap (d_ctx (w_dec w)) <= hard.
Proof.
  intros hard blocked ops w tr H Ho E. destruct (drun_winv ops _ (winv_init hard blocked H) Ho) as (w2 & tr2 & E2 & W & L).
  rewrite E in E2. injection E2 as <- <-. destruct (wi_es w W) as [[Wc Wz] _]. destruct Wc as [S T C].
  unfold tsize in S. unfold contents. destruct L as [L _]. cbn in L. lia.
Qed.
Print Assumptions C09_decoder_table_fits.
(* two entries of 35 bytes do not fit in 69; a capacity above the advertised one is an error *)
Example C09_decoder_table_fits_ex :
  let d1 := fst (read_encoder (dec_init 100 0) [63; 38; 65; 97; 2; 98; 98; 65; 97; 2; 98; 99]) in
  contents (d_ctx d1) = [([97], [98; 99])] /\ max_cap (d_ctx d1) = 69 /\
  snd (read_encoder (dec_init 68 0) [63; 38]) = Err ERR_QPACK_ENCODER_STREAM_ERROR.
Proof. vm_compute. repeat split; reflexivity. Qed.

(* C18: the decoder stream is a sequence of RFC 9204 instructions acknowledging exactly
   the completed sections that used the dynamic table (in order) and the cancelled
   streams; what the peer learns never exceeds the entries received, and right after a flush
   equals it *)
Theorem C18_decoder_stream_adds_up : forall hard blocked ops w tr,
  0 <= hard -> Forall dop_ok ops -> drun (dw_init hard blocked) ops = Some (w, tr) -> insert_count w < 2 ^ 62 ->
  exists il, rfc_dstream (flushed tr) il /\
    (exists rest, acks il ++ rest = map fst (completed tr)) /\
    (exists rest, cancels il ++ rest = cancelled tr) /\
    known 0 il (map snd (completed tr)) <= insert_count w /\
    (forall tr' l, tr = tr' ++ [(DFlush, DrBytes l)] ->
       acks il = map fst (completed tr) /\ cancels il = cancelled tr /\
       known 0 il (map snd (completed tr)) = insert_count w).
Proof. exact decoder_stream_counts. Qed.
Print Assumptions C18_decoder_stream_adds_up.
Theorem C18_announced_length : forall hard blocked ops w tr w' l,
  0 <= hard -> Forall dop_ok ops -> drun (dw_init hard blocked) ops = Some (w, tr) -> insert_count w < 2 ^ 62 ->
  dstep w DFlush = Some (w', DrBytes l) -> zlen l = get_decoder_streamlen (w_dec w).
Proof.
  intros hard blocked ops w tr w' l H Ho E Hn D. destruct (drun_winv ops _ (winv_init hard blocked H) Ho) as (w2 & tr2 & E2 & W & L).
  rewrite E in E2. injection E2 as <- <-. exact (flush_len w w' l W Hn D).
Qed.
Print Assumptions C18_announced_length.
Example C18_ex : exists w tr, drun (dw_init 4096 0) ex_ops = Some (w, tr) /\ insert_count w = 1 /\
  flushed tr = [132; 72] /\ completed tr = [(4, 1)] /\ cancelled tr = [8] /\
  rfc_dstream [132; 72] [IAck 4; ICancel 8] /\ known 0 [IAck 4; ICancel 8] [1] = 1.
Proof.
  destruct (drun (dw_init 4096 0) ex_ops) as [[w tr]|] eqn:E; [|vm_compute in E; discriminate].
  exists w, tr. split; [reflexivity|]. vm_compute in E. injection E as <- <-.
  repeat split; try reflexivity. eapply rd_cons; [vm_compute; reflexivity|]. eapply rd_cons; [vm_compute; reflexivity|]. constructor.
Qed.

(* C45 *)
Theorem C45_decoder_output_bounded : forall hard blocked ops w tr,
  0 <= hard -> Forall dop_ok ops -> drun (dw_init hard blocked) ops = Some (w, tr) ->
  zlen (d_dbuf (w_dec w)) <= Z.max (d_maxconc (w_dec w)) 100 * 20 + 10.
Proof.
  intros hard blocked ops w tr H Ho E. destruct (drun_winv ops _ (winv_init hard blocked H) Ho) as (w2 & tr2 & E2 & W & L).
  rewrite E in E2. injection E2 as <- <-. apply (wi_db w W).
Qed.
Print Assumptions C45_decoder_output_bounded.
(* the configured number of concurrent streams is the largest one given *)
Fixpoint max_conc (ops : list dop) : Z :=
  match ops with [] => 0 | DConc n :: t => Z.max n (max_conc t) | _ :: t => max_conc t end.
Lemma maxconc_step w o w' r : dstep w o = Some (w', r) -> winv w -> dop_ok o ->
  d_maxconc (w_dec w') = match o with DConc n => Z.max (d_maxconc (w_dec w)) n | _ => d_maxconc (w_dec w) end.
Proof.
  intros H W Ho. destruct o as [src|id src fin|id|id| |n]; cbn [dstep dop_ok] in *.
  - pose proof (read_encoder_ok (w_dec w) src (wi_es w W) Ho) as R. destruct (read_encoder (w_dec w) src) as [d' [x|e|]];
      [injection H as <- _|injection H as <- _|discriminate]; apply R.
  - destruct Ho as [Hb Hid]. destruct (wi_str w W id Hid) as [Sk Si].
    pose proof (read_request_good (w_dec w) _ src fin (proj1 (wi_es w W)) Sk Hb) as G.
    destruct (read_request (w_dec w) (sget (w_str w) id) src fin) as [s' v rest|s' rest|s'|d' s'|e d' s'|];
      [injection H as <- _..|discriminate]; auto; cbn [w_dec].
    + destruct G as (G1 & G2 & G3 & G4).
      destruct (fin_cases _ _ _ G4 ltac:(rewrite G2, Si; auto)) as (F1 & F2 & F3 & F4 & F5 & F6). auto.
    + destruct G as (_ & _ & [-> | ->]); auto.
  - injection H as <- _; auto.
  - unfold dec_cancel_stream in H. destruct (_ || _); [discriminate|]. destruct (dbuf_overflow _); injection H as <- _; auto.
  - unfold write_decoder in H. rewrite Z.ltb_irrefl in H. destruct (_ <? _); injection H as <- _; auto.
  - injection H as <- _; auto.
Qed.
Theorem C45_configured : forall hard blocked ops w tr,
  0 <= hard -> Forall dop_ok ops -> drun (dw_init hard blocked) ops = Some (w, tr) ->
  d_maxconc (w_dec w) = max_conc ops.
Proof.
  intros hard blocked ops w tr H Ho E.
  assert (G : forall ops w0 w tr, winv w0 -> Forall dop_ok ops -> drun w0 ops = Some (w, tr) ->
    0 <= d_maxconc (w_dec w0) -> d_maxconc (w_dec w) = Z.max (d_maxconc (w_dec w0)) (max_conc ops)).
  { clear. induction ops as [|o ops IH]; intros w0 w tr W Ho E P; cbn [drun max_conc] in *.
    - injection E as <- _. lia.
    - inversion Ho; subst. destruct (dstep_winv w0 o W H1) as (w1 & r & E1 & W1 & _). rewrite E1 in E.
      destruct (drun w1 ops) as [[w2 tr2]|] eqn:E2; [|discriminate]. injection E as <- _.
      pose proof (maxconc_step _ _ _ _ E1 W H1) as M.
      rewrite (IH _ _ _ W1 H2 E2) by (destruct o; lia). destruct o; lia. }
  rewrite (G ops _ _ _ (winv_init hard blocked H) Ho E) by (cbn; lia). cbn.
  assert (0 <= max_conc ops) by (clear; induction ops as [|[] ?]; cbn [max_conc]; lia). lia.
Qed.
Print Assumptions C45_configured.
Example C45_ex : option_map (fun p => zlen (d_dbuf (w_dec (fst p)))) (drun (dw_init 4096 0) (repeat (DCancel 300) 800)) = Some 2001.
Proof. vm_compute. reflexivity. Qed.
