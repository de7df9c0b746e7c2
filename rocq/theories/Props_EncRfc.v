(* C54: what the QPACK encoder writes is what RFC 9204 prescribes, for any receiver. *)
From Coq Require Import String.
From Verif Require Import Base BaseLemmas QpackTabModel QpackTabSpec QpackDynSpec QpackDynProofs QpackDecModel QpackEncModel QpackEncSpec QpackEncProofs QpackNvProofs QpackShrinkProofs QpackStreamProofs QpackFeedProofs QpackEncHistProofs
  QpackPeerProofs QpackEndProofs RfcQpackSpec RfcPrim RfcEnc RfcSec RfcMain RfcStreamSpec IdealSec MeanGrow EncRfc Props_QpackEnc.
Open Scope Z_scope.

(* After any history of calls the encoder stream is a sequence of complete instructions (RFC 9204 4.3), each of which a
   receiver that announced the same maximum capacity can carry out.  The table they make holds what the encoder's table
   holds, at the same absolute indices, and possibly older entries. *)
Theorem C54_encoder_stream : forall hard ops E tr, history hard ops -> erun (enc_init hard) ops = Some (E, tr) ->
  exists t, instructions hard t_start (enc_bytes tr) t [] /\ zlen (t_all t) = next_absidx (enc_ctx E) /\
    exists older, t_live t = contents (enc_ctx E) ++ older.
Proof.
  intros hard ops E tr (H1 & H2 & H3) R. destruct (encoder_rfc 0 hard ops E tr H1 H2 H3 R) as (V & t & I & In1 & M & _). exists t. split; [exact In1|].
  pose proof (ei_vl _ _ _ _ _ I) as L. split; [rewrite <- (tm_next _ _ _ M); apply (vl_next _ _ _ L)|]. rewrite <- (tm_live _ _ _ M). apply (vl_pre _ _ _ L).
Qed.
(* Let [got] be any part of the encoder stream that has arrived and H the insertions it makes.  Every section ever
   written whose Required Insert Count has been reached is, by RFC 9204 4.5, a field section with exactly the fields
   submitted, their never-index flags included (section_says) ... *)
Theorem C54_sections : forall hard ops E tr got more H id hs sec eb ric, history hard ops -> erun (enc_init hard) ops = Some (E, tr) ->
  enc_bytes tr = got ++ more -> insertions hard got H -> In (EEncode id hs, ErSection sec eb ric) tr -> ric <= zlen H ->
  section_says hard H sec ric hs.
Proof.
  intros hard ops E tr got more H id hs sec eb ric (H1 & H2 & H3) R Eq IN Hi Le. destruct (encoder_rfc 0 hard ops E tr H1 H2 H3 R) as (V & t & I & In1 & M & _ & S).
  specialize (S _ _ _ _ _ Hi). assert (B : bytes (enc_bytes tr)) by (destruct (ei_es _ _ _ _ _ I) as (X & _); exact X). rewrite Eq in B.
  destruct (insertions_grow hard got more H (t_all t) B IN) as (X & G); [exists t, []; rewrite <- Eq; split; [exact In1|]; split; [intros i r; apply an_einstr_nil|reflexivity]|].
  rewrite G in S. exact (says_shrink _ _ _ _ _ _ S Le).
Qed.
(* ... and that is the only way to read it, at any Insert Count n that is not further away from the Required Insert Count
   than the maximum number of entries (C12_any_delay_refuted: beyond, it may be misread) *)
Theorem C54_only_reading : forall hard ops E tr got more H id hs sec eb ric, history hard ops -> erun (enc_init hard) ops = Some (E, tr) ->
  enc_bytes tr = got ++ more -> insertions hard got H -> In (EEncode id hs, ErSection sec eb ric) tr -> ric <= zlen H ->
  forall n ric' base m qs, 0 <= n -> ric = 0 \/ n - hard / 32 < ric <= n + hard / 32 ->
    section_prefix hard n sec ric' base m -> field_lines (numbered H) ric' base m qs [] -> ric' = ric /\ qs = map said hs.
Proof.
  intros hard ops E tr got more H id hs sec eb ric Hh R Eq IN Hi Le. pose proof (C54_sections _ _ _ _ _ _ _ _ _ _ _ _ Hh R Eq IN Hi Le) as S.
  destruct Hh as (H1 & H2 & H3). destruct (from_start 0 hard ops E tr H1 H2 H3 R) as (V & I & _). exact (says_only hard H sec ric hs (proj1 H1) (section_bytes _ _ _ _ _ _ _ _ _ _ I Hi) S).
Qed.
(* A receiver that keeps no more than its dynamic table (3.2) still holds what a section needs, as long as the section
   is neither acknowledged nor cancelled *)
Theorem C54_outstanding : forall hard ops E tr s got more t l, history hard ops -> erun (enc_init hard) ops = Some (E, tr) ->
  In s (v_out (view_of tr)) -> enc_bytes tr = got ++ more -> instructions hard t_start got t l -> unfinished l -> o_ric s <= zlen (t_all t) ->
  field_section hard t (o_bytes s) (o_ric s) (map said (o_fields s)).
Proof. intros hard ops E tr s got more t l (H1 & H2 & H3) R Ho Eq It Un Le. exact (outstanding_rfc 0 hard ops E tr s got more t l H1 H2 H3 R Ho Eq It Un Le). Qed.
(* the section just written is readable by the receiver that has everything *)
Theorem C54_encode_says : forall hard ops id hs E tr sec eb ric, history hard (ops ++ [EEncode id hs]) ->
  erun (enc_init hard) (ops ++ [EEncode id hs]) = Some (E, tr ++ [(EEncode id hs, ErSection sec eb ric)]) ->
  exists H, insertions hard (enc_bytes tr ++ eb) H /\ section_says hard H sec ric hs.
Proof.
  intros hard ops id hs E tr sec eb ric Hh R. destruct (C54_encoder_stream _ _ _ _ Hh R) as (t & I & _). exists (t_all t).
  assert (EB : enc_bytes (tr ++ [(EEncode id hs, ErSection sec eb ric)]) = enc_bytes tr ++ eb) by (rewrite enc_bytes_app; cbn; rewrite app_nil_r; reflexivity).
  assert (IN : insertions hard (enc_bytes tr ++ eb) (t_all t)). { rewrite <- EB. exists t, []. split; [exact I|]. split; [intros i r; apply an_einstr_nil|reflexivity]. }
  split; [exact IN|]. destruct Hh as (H1 & H2 & H3). destruct (encoder_rfc 0 hard _ E _ H1 H2 H3 R) as (V & t2 & I2 & In2 & _ & _ & S).
  assert (B : bytes (enc_bytes tr ++ eb)) by (rewrite <- EB; destruct (ei_es _ _ _ _ _ I2) as (X & _); exact X).
  replace (t_all t) with (t_all t2); [apply (S id hs sec eb ric); apply in_or_app; right; left; reflexivity|].
  eapply (insertions_fun hard (enc_bytes tr ++ eb)); [exact B| |exact IN]. exists t2, []. rewrite <- EB. split; [exact In2|]. split; [intros i r; apply an_einstr_nil|reflexivity].
Qed.
Print Assumptions C54_encoder_stream.
Print Assumptions C54_sections.
Print Assumptions C54_only_reading.
Print Assumptions C54_outstanding.
Print Assumptions C54_encode_says.

(* the history of Props_QpackEnc.v: one insertion, two sections that refer to it *)
Example C54_applies : history 4096 x_ops /\ (exists E, erun (enc_init 4096) x_ops = Some (E, x_tr)) /\
  In (EEncode 0 [x_one; x_auth; x_path], ErSection x_sec0 x_eb 1) x_tr /\
  In (mk_sent 0 [x_one; x_auth; x_path] x_sec0 1) (v_out (view_of x_tr)) /\ enc_bytes x_tr = x_eb.
Proof.
  split; [exact x_history|]. split. { pose proof x_run as X. destruct (erun (enc_init 4096) x_ops) as [[E tr]|]; [|discriminate X]. cbn in X. injection X as ->. exists E. reflexivity. }
  split; [right; right; left; reflexivity|]. split; [left; reflexivity|]. vm_compute. reflexivity.
Qed.
Example C54_insertions : exists H, insertions 4096 x_eb H /\ zlen H = 1.
Proof.
  destruct C54_applies as (Hh & (E & R) & _ & _ & EB). destruct (C54_encoder_stream _ _ _ _ Hh R) as (t & I & L & _). rewrite EB in I. exists (t_all t).
  split; [exists t, []; split; [exact I|]; split; [intros i r; apply an_einstr_nil|reflexivity]|]. rewrite L.
  assert (X : option_map (fun p => next_absidx (enc_ctx (fst p))) (erun (enc_init 4096) x_ops) = Some 1) by (vm_compute; reflexivity). rewrite R in X. cbn [option_map fst] in X. congruence.
Qed.
