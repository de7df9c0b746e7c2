(* C50: the QPACK decoder reads what RFC 9204 says the bytes mean, no more and no less. *)
From Verif Require Import Base BaseLemmas QpackIntModel QpackIntSpec QpackTabModel QpackTabSpec
  QpackDynSpec QpackDynProofs Chunk QpackDecModel QpackReadProofs QpackDecProofs QpackSecProofs QpackWireProofs QpackHistModel QpackHistSpec QpackHistProofs
  QpackCutProofs QpackEvolveProofs RfcQpackSpec RfcPrim RfcEnc RfcSec RfcMain.
Open Scope Z_scope.

(* After any history of calls none of which failed, the bytes of the encoder stream received so
   far are, by RFC 9204, a sequence of instructions each of which could be carried out, then the
   beginning of one more; the dynamic table of the decoder is the one those instructions make. *)
Theorem C50_encoder_stream_means_rfc hard blocked ops w tr : 0 <= hard -> Forall dop_ok ops ->
  drun (dw_init hard blocked) ops = Some (w, tr) -> error_free tr ->
  exists t l, instructions hard t_start (QpackHistSpec.received ops) t l /\ unfinished l /\
    contents (d_ctx (w_dec w)) = t_live t /\ insert_count w = zlen (t_all t) /\ max_cap (d_ctx (w_dec w)) = t_cap t.
Proof.
  intros Hh Ho R E. destruct (hist_table _ _ _ _ _ Hh Ho R E) as (t & l & I & U & M). exists t, l.
  split; [exact I|]. split; [exact U|]. split; [exact (tm_live _ _ _ M)|]. split; [exact (tm_next _ _ _ M)|exact (tm_cap _ _ _ M)].
Qed.
(* The encoder stream is refused only if RFC 9204 gives no way to go on: after the instructions
   that can be carried out come bytes that, whatever follows, are not one more -- or the peer has
   sent more than 131072 bytes since the last completed section. *)
Theorem C50_encoder_stream_refused hard blocked ops w tr p w' e : 0 <= hard -> Forall dop_ok ops ->
  drun (dw_init hard blocked) ops = Some (w, tr) -> error_free tr ->
  bytes p -> dstep w (DEnc p) = Some (w', DrErr e) ->
  131072 < d_unint (w_dec w) + zlen p \/
  exists t l, instructions hard t_start (QpackHistSpec.received ops ++ p) t l /\ no_instruction hard t l.
Proof. exact (hist_reject hard blocked ops w tr p w' e). Qed.

(* A field section read at once: what comes out is what RFC 9204 says. *)
Theorem C50_section_means_rfc hard blocked ops w tr id p : 0 <= hard -> Forall dop_ok ops ->
  drun (dw_init hard blocked) ops = Some (w, tr) -> error_free tr -> bytes p ->
  exists t l, instructions hard t_start (QpackHistSpec.received ops) t l /\ unfinished l /\
  match decode_section (w_dec w) (sctx_init id) p true with
  | (qs, RqFinal d' s') => s_id s' = id /\ field_section hard t p (s_ricnt s') qs
  | (qs, RqBlocked s' r) => qs = [] /\ zlen (t_all t) < s_ricnt s' /\ exists base, section_prefix hard (zlen (t_all t)) p (s_ricnt s') base r
  | (qs, RqErr e d' s') => e = ERR_QPACK_FATAL /\ dbuf_overflow (w_dec w) = true \/ forall ric qs', ~ field_section hard t p ric qs'
  | _ => False
  end.
Proof. exact (hist_section hard blocked ops w tr id p). Qed.
(* ... and every section that RFC 9204 allows is accepted, with exactly its fields (unless the
   application has not fetched the decoder stream for very long). *)
Theorem C50_section_accepted hard blocked ops w tr id p t l ric qs : 0 <= hard -> Forall dop_ok ops ->
  drun (dw_init hard blocked) ops = Some (w, tr) -> error_free tr -> bytes p ->
  instructions hard t_start (QpackHistSpec.received ops) t l -> unfinished l ->
  field_section hard t p ric qs -> dbuf_overflow (w_dec w) = false ->
  exists d s, decode_section (w_dec w) (sctx_init id) p true = (qs, RqFinal d s) /\ s_ricnt s = ric.
Proof.
  intros Hh Ho R E Bp I U F O. destruct (hist_table _ _ _ _ _ Hh Ho R E) as (t2 & l2 & I2 & U2 & M).
  assert (t2 = t /\ l2 = l) as (-> & ->).
  { pose proof (winv_init hard blocked Hh) as W. destruct (drun_core ops _ _ _ W Ho eq_refl R E) as (_ & Bs & _).
    exact (instructions_fun hard _ _ _ _ _ _ Bs I2 U2 I U). }
  destruct (hist_section hard blocked ops w tr id p Hh Ho R E Bp) as (t3 & l3 & I3 & U3 & S).
  assert (t3 = t /\ l3 = l) as (-> & ->).
  { pose proof (winv_init hard blocked Hh) as W. destruct (drun_core ops _ _ _ W Ho eq_refl R E) as (_ & Bs & _).
    exact (instructions_fun hard _ _ _ _ _ _ Bs I3 U3 I U). }
  destruct (decode_section (w_dec w) (sctx_init id) p true) as (qs' & [s v rest|s rest|s|d s|e d s|]); try (destruct S; fail).
  - destruct S as (_ & L & base & SP). exfalso. destruct F as (base2 & m & SP2 & L2 & _).
    rewrite <- (tm_next _ _ _ M), <- (tm_hard _ _ _ M) in SP, SP2. destruct (section_prefix_fun _ _ _ _ _ _ _ _ (tm_ok _ _ _ M) Bp SP SP2) as (X & _). lia.
  - destruct S as (_ & S). destruct (field_section_fun _ _ _ _ _ _ _ _ M Bp S F) as (X & ->). exists d, s. auto.
  - exfalso. destruct S as [(_ & S)|S]; [congruence|exact (S _ _ F)].
Qed.
Print Assumptions C50_encoder_stream_means_rfc.
Print Assumptions C50_encoder_stream_refused.
Print Assumptions C50_section_means_rfc.
Print Assumptions C50_section_accepted.

(* RFC 9204 Appendix B: the encoder stream of B.2, B.3 and B.4 and the two field sections *)
Definition appB_enc2 : list Z := [0x3f;0xbd;0x01;0xc0;0x0f;0x77;0x77;0x77;0x2e;0x65;0x78;0x61;0x6d;0x70;0x6c;0x65;0x2e;0x63;0x6f;0x6d;
  0xc1;0x0c;0x2f;0x73;0x61;0x6d;0x70;0x6c;0x65;0x2f;0x70;0x61;0x74;0x68].
Definition appB_sec2 : list Z := [0x03;0x81;0x10;0x11].
Definition appB_enc3 : list Z := [0x4a;0x63;0x75;0x73;0x74;0x6f;0x6d;0x2d;0x6b;0x65;0x79;0x0c;0x63;0x75;0x73;0x74;0x6f;0x6d;0x2d;0x76;0x61;0x6c;0x75;0x65].
Definition appB_enc4 : list Z := [0x02].
Definition appB_sec4 : list Z := [0x05;0x00;0x80;0xc1;0x81].
Definition appB_ops : list dop := [DEnc appB_enc2; DEnc (appB_enc3 ++ appB_enc4)].
Definition w_authority : list Z := [58;97;117;116;104;111;114;105;116;121].
Definition w_example : list Z := [0x77;0x77;0x77;0x2e;0x65;0x78;0x61;0x6d;0x70;0x6c;0x65;0x2e;0x63;0x6f;0x6d].
Definition w_path : list Z := [58;112;97;116;104].
Definition w_sample : list Z := [0x2f;0x73;0x61;0x6d;0x70;0x6c;0x65;0x2f;0x70;0x61;0x74;0x68].
Definition w_key : list Z := [0x63;0x75;0x73;0x74;0x6f;0x6d;0x2d;0x6b;0x65;0x79].
Definition w_val : list Z := [0x63;0x75;0x73;0x74;0x6f;0x6d;0x2d;0x76;0x61;0x6c;0x75;0x65].
Example C50_appendix_B : exists w tr, drun (dw_init 220 0) appB_ops = Some (w, tr) /\ error_free tr /\ Forall dop_ok appB_ops /\
  contents (d_ctx (w_dec w)) = [(w_authority, w_example); (w_key, w_val); (w_path, w_sample); (w_authority, w_example)] /\
  exists d s, decode_section (w_dec w) (sctx_init 8) appB_sec4 true =
    ([shown_field (w_authority, w_example) false; shown_field (w_path, [47]) false; shown_field (w_key, w_val) false], RqFinal d s).
Proof.
  destruct (drun (dw_init 220 0) appB_ops) as [[w tr]|] eqn:E; [|vm_compute in E; discriminate].
  exists w, tr. split; [reflexivity|].
  assert (X : Some (w, tr) = drun (dw_init 220 0) appB_ops) by auto. clear E. vm_compute in X. injection X as -> ->.
  split; [intros o e [[=]|[[=]|[]]]|]. split; [repeat constructor; try (unfold is_byte; lia)|].
  split; [vm_compute; reflexivity|]. eexists _, _. vm_compute. reflexivity.
Qed.
Example C50_appendix_B_section : forall w tr, drun (dw_init 220 0) [DEnc appB_enc2] = Some (w, tr) ->
  exists d s, decode_section (w_dec w) (sctx_init 4) appB_sec2 true =
    ([shown_field (w_authority, w_example) false; shown_field (w_path, w_sample) false], RqFinal d s).
Proof. intros w tr E. vm_compute in E. injection E as <- <-. eexists _, _. vm_compute. reflexivity. Qed.
(* refusals: an index outside the table, a capacity above the maximum, an entry larger than the
   capacity, a reference at or above the Required Insert Count *)
Example C50_refusals :
  (exists w, dstep (dw_init 220 0) (DEnc [0x02]) = Some (w, DrErr ERR_QPACK_ENCODER_STREAM_ERROR)) /\
  (exists w, dstep (dw_init 220 0) (DEnc [0x3f; 0xbe; 0x01]) = Some (w, DrErr ERR_QPACK_ENCODER_STREAM_ERROR)) /\
  (exists w, dstep (dw_init 220 0) (DEnc appB_enc3) = Some (w, DrErr ERR_QPACK_ENCODER_STREAM_ERROR)) /\
  forall w tr, drun (dw_init 220 0) [DEnc appB_enc2] = Some (w, tr) ->
    exists d s, decode_section (w_dec w) (sctx_init 4) [0x02; 0x80; 0x11] true = ([], RqErr ERR_QPACK_DECOMPRESSION_FAILED d s).
Proof.
  split; [eexists; vm_compute; reflexivity|]. split; [eexists; vm_compute; reflexivity|]. split; [eexists; vm_compute; reflexivity|].
  intros w tr E. vm_compute in E. injection E as <- <-. eexists _, _. vm_compute. reflexivity.
Qed.
