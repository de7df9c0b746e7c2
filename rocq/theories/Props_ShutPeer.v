(* C61, continued: nghttp3's own QPACK encoder as the peer whose cancelled stream still counts *)
From Coq Require Import String.
From Verif Require Import Base BaseLemmas ConvModel HttpModel QpackDecModel QpackHistSpec BidiModel BidiHist TxModel ControlModel ConnModel ConnDecomp ConnHist RecvSpec ConnDemo Props_Recv ShutRdSpec ShutRd Props_ShutRd.
From Verif Require QpackTabModel QpackTabSpec QpackEncModel QpackEncSpec QpackEncHistProofs Props_QpackEnc.
Open Scope Z_scope.

Definition fld61 (n v : string) : QpackTabModel.nv := QpackTabModel.mk_nv (QpackTabSpec.bs n) (QpackTabSpec.bs v) QpackTabModel.FLAG_TRY_INDEX.
(* GET https://a/ *)
Definition get61 : list QpackTabModel.nv := [fld61 ":method" "GET"; fld61 ":scheme" "https"; fld61 ":path" "/"; fld61 ":authority" "a"]%string.
(* the calls of nghttp3's own encoder at the client: capacity 256 and one blocked stream, as the server's SETTINGS say;
   request 0; the decoder stream of the server brings the byte 64; request 4 *)
Definition eops61 : list QpackEncModel.eop :=
  [QpackEncModel.ESetCap 256; QpackEncModel.ESetBlocked 1; QpackEncModel.EEncode 0 get61; QpackEncModel.EFeed [64]; QpackEncModel.EEncode 4 get61].
(* a HEADERS frame with fewer than 64 bytes *)
Definition headers61 (sec : list Z) : list Z := 1 :: zlen sec :: sec.

(* The encoder respects the limit, carries out the cancellation, and lets request 4 refer to the insertion that was not
   acknowledged: its two sections, sent as they are, are the requests of C61_still_counts_refuted *)
Theorem C61_own_encoder_refuted : QpackEncSpec.history 256 eops61 /\
  exists E sec0 eb sec4,
    option_map (fun r => (map snd (snd r))) (QpackEncModel.erun (QpackEncModel.enc_init 256) eops61) =
      Some [QpackEncModel.ErDone; QpackEncModel.ErDone; QpackEncModel.ErSection sec0 eb 1; QpackEncModel.ErFed [(QpackEncModel.DsCancel, 0)]; QpackEncModel.ErSection sec4 [] 1] /\
    option_map fst (QpackEncModel.erun (QpackEncModel.enc_init 256) eops61) = Some E /\ QpackEncModel.enc_krcnt E = 0 /\
    In (ORead 0 (headers61 sec0) true) ops61c /\
    (exists x, In x (run_h K61 ops61c) /\ ConnHist.c_op x = OWritev 16 /\ c_evs x = [KOffer 11 [[64]] false]) /\
    failed61 (kstep K61 (run_end K61 ops61c) (ORead 4 (headers61 sec4) true)) = true.
Proof.
  split.
  { split; [lia|]. split; [|reflexivity]. unfold eops61. repeat (constructor; cbn [QpackEncSpec.eop_ok]); try lia; try discriminate; try reflexivity.
    all: unfold bytes; repeat (constructor; unfold is_byte; [lia|]); constructor. }
  destruct (QpackEncModel.erun (QpackEncModel.enc_init 256) eops61) as [[E tr]|] eqn:R; [|vm_compute in R; discriminate R].
  exists E, [2; 128; 209; 215; 193; 16], [63; 225; 1; 192; 1; 97], [2; 0; 209; 215; 193; 128].
  split; [rewrite <- R; vm_compute; reflexivity|]. split; [reflexivity|]. split.
  { replace E with (match QpackEncModel.erun (QpackEncModel.enc_init 256) eops61 with Some x => fst x | None => E end) by (rewrite R; reflexivity). vm_compute. reflexivity. }
  split; [unfold ops61c; apply in_or_app; right; left; reflexivity|]. split; [|vm_compute; reflexivity].
  assert (X : option_map (fun x => (ConnHist.c_op x, c_evs x)) (nth_error (run_h K61 ops61c) 10) = Some (OWritev 16, [KOffer 11 [[64]] false])) by (vm_compute; reflexivity).
  destruct (nth_error (run_h K61 ops61c) 10) as [x|] eqn:N; [|discriminate X]. exists x. split; [eapply nth_error_In; exact N|].
  split; [exact (f_equal (fun o => match o with Some y => fst y | None => ConnHist.c_op x end) X)|exact (f_equal (fun o => match o with Some y => snd y | None => [] end) X)].
Qed.
Print Assumptions C61_own_encoder_refuted.
