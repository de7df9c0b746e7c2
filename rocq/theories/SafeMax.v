(* The stream id limit a server has announced to the transport, along a history *)
From Verif Require Import Base BaseLemmas Chunk ConvModel ConvProofs RdVarint QpackTabModel QpackDecModel HttpModel BidiModel BidiHist ControlModel ControlSpec ControlTrace GapModel PqModel TxModel SchedModel ConnModel ConnStep ConnCtl ConnWf ConnDecomp ConnHist ConnRead ConnRecv ConnUni SafeSpec SafeMisc.
Open Scope Z_scope.
Section SafeMax.
Context (K : kenv).
Lemma add_mx d i s : k_maxcl (add_stream K d i s) = k_maxcl d. Proof. unfold add_stream; destruct (is_server_bidi K i); reflexivity. Qed.
Lemma after_mx c id s x evs c' : after_read c id s x evs = Ok c' -> k_maxcl c' = k_maxcl c.
Proof. intros H. rewrite (after_mid _ _ _ _ _ _ H). unfold mid. destruct (b_blk (x_st x) && negb (b_blk (x_st (st_x s)))); reflexivity. Qed.
Lemma drop_mx c id s evs c' rv ev : drop_stream K c id s evs = KOk c' rv ev -> k_maxcl c' = k_maxcl c.
Proof. unfold drop_stream. destruct (is_server_bidi K id); [destruct (k_num c <=? 0); [discriminate|]|]; intros [= <- _ _]; reflexivity. Qed.
Lemma unblock_mx f : forall c c' rv evs, unblock_loop K f c = KOk c' rv evs -> k_maxcl c' = k_maxcl c.
Proof.
  induction f as [|f IH]; intros c c' rv evs H; [discriminate|]. cbn [unblock_loop] in H. destruct (pq_empty (k_blk c)); [injection H as <- _ _; reflexivity|].
  destruct (pq_top (k_blk c)) as [id|e|]; try discriminate. destruct (find_stream c id) as [s|]; [|discriminate]. destruct (next_absidx (d_ctx (k_dec c)) <? ricnt c id); [injection H as <- _ _; reflexivity|].
  destruct (pq_pop (ricnt_less c) (k_blk c)) as [q|e|]; try discriminate. cbv zeta in H.
  match type of H with match ?r with _ => _ end = _ => destruct r as [x' ev|x' ev|e ev|] end; try discriminate.
  - match type of H with match ?r with _ => _ end = _ => destruct r as [c2|e|] eqn:A end; try discriminate. apply after_mx in A.
    destruct (unblock_loop K f c2) as [c3 rv3 ev3|e ev3|] eqn:L; try discriminate. injection H as <- _ _. rewrite (IH _ _ _ _ L), A. reflexivity.
  - match type of H with match ?r with _ => _ end = _ => destruct r as [c2|e|] eqn:A end; try discriminate. apply after_mx in A.
    match type of H with match ?r with _ => _ end = _ => destruct r as [c3 rv3 ev3|e ev3|] eqn:D end; try discriminate. apply drop_mx in D.
    destruct (unblock_loop K f c3) as [c4 rv4 ev4|e ev4|] eqn:L; try discriminate. injection H as <- _ _. rewrite (IH _ _ _ _ L), D, A. reflexivity.
Qed.
Lemma encoder_mx c src c' rv evs : read_qpack_encoder K c src = KOk c' rv evs -> k_maxcl c' = k_maxcl c.
Proof.
  unfold read_qpack_encoder. destruct (read_encoder (k_dec c) src) as [d o]. destruct o as [n|e|]; try discriminate.
  destruct (unblock_loop K (S (pq_size (k_blk c))) (kk_dec c d)) as [c2 rv2 ev2|e ev2|] eqn:L; try discriminate. intros [= <- _ _]. rewrite (unblock_mx _ _ _ _ _ L). reflexivity.
Qed.
Lemma updates_mx evs : forall c c', apply_updates K c evs = Ok c' -> k_maxcl c' = k_maxcl c.
Proof.
  induction evs as [|e evs IH]; intros c c' H; [injection H as <-; reflexivity|]. destruct e; cbn [apply_updates] in H; try (apply IH; exact H).
  apply obind_ok in H as (c1 & H1 & H). rewrite (IH _ _ H). clear H. unfold on_priority_update in H1. destruct (find_stream c id) as [s|] eqn:F.
  - destruct (st_sp s); [injection H1 as <-; reflexivity|]. cbv zeta in H1. unfold update_priority in H1. destruct (client_bidi id); [|discriminate]. cbn [negb] in H1. unfold sched_do in H1.
    destruct (sc_priority _ _ _ _); try discriminate. injection H1 as <-. reflexivity.
  - destruct (k_queued c && (k_goaway c <=? id)); [injection H1 as <-; reflexivity|]. apply obind_ok in H1 as ([r g] & _ & H1). destruct (negb (r =? 0)).
    + destruct (r =? ERR_STREAM_IN_USE); [|discriminate]. injection H1 as <-. reflexivity.
    + apply obind_ok in H1 as (c2 & C & H1). injection H1 as <-. apply create_ok in C as [_ ->]. change (k_maxcl (add_stream K (kk_maxid (kk_idtr c g) (Z.max (k_maxid c) id)) id (ss_pu (new_stream id (rx_init id http_init (k_dec c))) true)) = k_maxcl c).
      rewrite add_mx. reflexivity.
Qed.

Lemma control_mx c src c' rv evs : read_control_stream K c src = KOk c' rv evs -> k_maxcl c' = k_maxcl c.
Proof.
  unfold read_control_stream. destruct (read_control _ _ _ _) as [s ev|s ev|e x|]; try discriminate. destruct (apply_updates K (kk_ctl c s) ev) as [c2|e|] eqn:A; try discriminate. intros [= <- _ _].
  apply updates_mx in A. exact A.
Qed.
Lemma typed_mx c id s src fin c' n evs : read_uni_typed K c id s src fin = KOk c' n evs -> k_maxcl c' = k_maxcl c.
Proof.
  intros R. apply read_typed_shape in R. inversion R as [? ? ? F1 F2 EQ|? ? ? F1 F2 EQ|? F1 F2 EQ|EQ]; subst; [eapply control_mx; eauto|eapply encoder_mx; eauto|reflexivity|reflexivity].
Qed.
Lemma identify_mx c v c1 u : identify c v = Ok (c1, u) -> k_maxcl c1 = k_maxcl c.
Proof. intros I. destruct (identify_same _ _ _ _ I) as [-> _]. reflexivity. Qed.
Lemma uni_mx c id s src fin c' rv evs : uni_read K c id s src fin c' rv evs -> k_maxcl c' = k_maxcl c.
Proof.
  intros R. destruct R as [rvi c' rv evs Es -> -> L D|rvi rvi' Es NF V|rvi v u c1 Es V I|rvi v rest u c1 c' n evs Es V NR I R|c' n evs N R].
  - eapply drop_mx; exact D.
  - reflexivity.
  - change (k_maxcl c1 = k_maxcl c). eapply identify_mx; eauto.
  - rewrite (typed_mx _ _ _ _ _ _ _ _ R). change (k_maxcl c1 = k_maxcl c). eapply identify_mx; eauto.
  - eapply typed_mx; eauto.
Qed.
Lemma read_mx c id src fin c' rv evs : kstep K c (ORead id src fin) = KOk c' rv evs -> k_maxcl c' = k_maxcl c.
Proof.
  cbn [kstep]. intros S.
  assert (OK : forall c0 s pre, opened K c id c0 s pre -> k_maxcl c0 = k_maxcl c).
  { intros c0 s pre OP. inversion OP; subst; [reflexivity|rewrite add_mx; reflexivity|apply add_mx]. }
  apply read_cases in S as [RG S]. destruct S as [F P -> ->|c0 s pre OP -> ->|c0 s pre c' rv evs OP CB _ R|c0 s c' rv evs OP P NE R].
  - reflexivity.
  - eapply OK; eauto.
  - rewrite <- (OK _ _ _ OP). unfold read_request_stream in R. cbv zeta in R. destruct (recv _ _ _ _ _) as [x' ev|x' ev|e ev|]; try discriminate.
    destruct (after_read c0 id s x' ev) as [c2|e|] eqn:A; try discriminate. injection R as <- _ _. eapply after_mx; eauto.
  - rewrite <- (OK _ _ _ OP). eapply uni_mx; eauto.
Qed.
Lemma ksts_mx c l c' : ksts K c l c' -> ~ In AMisc l -> k_maxcl c' = k_maxcl c.
Proof. induction 1; intros N; auto. rewrite IHksts by (intros X; apply N; right; exact X). eapply kst_maxcl; [eassumption|]. intros ->. apply N. left. reflexivity. Qed.
Lemma step_mx c o c' rv evs : wf K c -> op_ok o -> kstep K c o = KOk c' rv evs -> k_maxcl c' = match o with OMaxClient n => n | _ => k_maxcl c end.
Proof.
  intros W O S.
  assert (NR : ~ (match o with ORead _ _ _ | OMaxClient _ => True | _ => False end) -> k_maxcl c' = k_maxcl c).
  { intros N. destruct (step_decomp _ _ _ _ _ _ W O S) as (acts & D & _ & F & _). apply (ksts_mx _ _ _ D). intros X. rewrite Forall_forall in F. apply F in X. exact (N X). }
  destruct o; try (apply NR; exact (fun x => x)); clear NR; [eapply read_mx; exact S|].
  cbn [kstep] in S. unfold set_max_client in S. destruct (ke_server K && (k_maxcl c <=? n)); [injection S as <- _ _; reflexivity|discriminate].
Qed.
Theorem hist_maxcl h c : history K h c -> k_maxcl c = 0 \/ In (OMaxClient (k_maxcl c)) (ops_of h).
Proof.
  intros H. revert h c H. refine (hist_inv K (fun h c => k_maxcl c = 0 \/ In (OMaxClient (k_maxcl c)) (ops_of h)) _ _).
  - left. reflexivity.
  - intros h c o c' rv evs H W O IH S. rewrite ops_snoc, in_app_iff, (step_mx _ _ _ _ _ W O S). cbn [ConnHist.c_op In]. destruct o; tauto.
Qed.
End SafeMax.
