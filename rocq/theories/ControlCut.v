(* Where the reader of the control stream stands in the bytes it was given, and the one place where it aborts *)
From Verif Require Import Base BaseLemmas Chunk ConvModel ConvSpec ConvProofs RdVarint HttpModel ControlModel ControlSpec ControlProofs ControlTrace ConnCtl SafeSpec.
Open Scope Z_scope.

Inductive skips : list Z -> list Z -> Prop :=
| sk_nil b : skips b b
| sk_cons b b' t : next_frame b = Some b' -> skips b' t -> skips b t.
Lemma skips_snoc a b c : skips a b -> next_frame b = Some c -> skips a c.
Proof. intros S N. induction S; [eapply sk_cons; [exact N|apply sk_nil]|eapply sk_cons; eauto]. Qed.
Lemma skips_behind a b : skips a b -> behind_element_id b -> behind_element_id a.
Proof. intros S. induction S; auto. intros HB. eapply be_next; eauto. Qed.

Lemma get_app l x v r : bytes l -> get_varint l = Some (v, r) -> get_varint (l ++ x) = Some (v, r ++ x) /\ 0 <= v <= max_varint /\ bytes r /\ (length r < length l)%nat.
Proof. intros B G. pose proof (get_varint_app l x B) as H. rewrite G in H. exact H. Qed.
Lemma rfc_app l x v r : bytes l -> bytes x -> rfc_varint l = Some (v, r) -> rfc_varint (l ++ x) = Some (v, r ++ x) /\ bytes r.
Proof.
  intros B X G. rewrite <- get_varint_rfc in G by auto. destruct (get_app l x v r B G) as (H & _ & H2 & _). rewrite <- get_varint_rfc; [auto|]. apply bytes_app; auto.
Qed.
Lemma next_app b x b' : bytes b -> bytes x -> next_frame b = Some b' -> next_frame (b ++ x) = Some (b' ++ x) /\ bytes b'.
Proof.
  intros B X. unfold next_frame. destruct (rfc_varint b) as [[ty b1]|] eqn:G1; [|discriminate]. destruct (rfc_app _ x _ _ B X G1) as [-> B1].
  destruct (rfc_varint b1) as [[len b2]|] eqn:G2; [|discriminate]. destruct (rfc_app _ x _ _ B1 X G2) as [-> B2].
  destruct ((ty =? GOAWAY) || (ty =? MAX_PUSH_ID)).
  - destruct (rfc_varint b2) as [[v r]|] eqn:G3; [|discriminate]. destruct (rfc_app _ x _ _ B2 X G3) as [-> B3]. intros [= <-]. auto.
  - destruct (Z.leb_spec len (zlen b2)) as [L|]; [|discriminate]. intros [= <-]. rewrite zlen_app. pose proof (zlen_nonneg _ x).
    destruct (Z.leb_spec len (zlen b2 + zlen x)); [|lia]. rewrite skipn_app. split; [|apply bytes_skipn; auto].
    do 2 f_equal. replace (Z.to_nat len - length b2)%nat with O by (unfold zlen in L; lia). reflexivity.
Qed.
Lemma skips_app b t x : bytes b -> bytes x -> skips b t -> skips (b ++ x) (t ++ x) /\ bytes t.
Proof.
  intros B X S. induction S as [b|b b' t N S IH]; [split; [apply sk_nil|auto]|]. destruct (next_app b x b' B X N) as [N1 B1]. destruct (IH B1) as [IH1 IH2].
  split; auto. eapply sk_cons; eauto.
Qed.

Definition header (u : list Z) (ty len : Z) (q : list Z) : Prop := exists p, get_varint u = Some (ty, p) /\ get_varint p = Some (len, q).
Lemma header_app u ty len q x : bytes u -> header u ty len q -> header (u ++ x) ty len (q ++ x).
Proof.
  intros B (p & G1 & G2). destruct (get_app u x _ _ B G1) as (H1 & _ & B1 & _). destruct (get_app p x _ _ B1 G2) as (H2 & _). exists (p ++ x). auto.
Qed.
Lemma header_bytes u ty len q : bytes u -> header u ty len q -> bytes q.
Proof. intros B (p & G1 & G2). destruct (get_app u [] _ _ B G1) as (_ & _ & B1 & _). destruct (get_app p [] _ _ B1 G2) as (_ & _ & B2 & _). exact B2. Qed.
Lemma header_next u ty len q : bytes u -> header u ty len q -> next_frame u = if (ty =? GOAWAY) || (ty =? MAX_PUSH_ID) then option_map snd (get_varint q) else if len <=? zlen q then Some (skipn (Z.to_nat len) q) else None.
Proof.
  intros B H. pose proof (header_bytes _ _ _ _ B H) as Bq. destruct H as (p & G1 & G2). unfold next_frame. destruct (get_app u [] _ _ B G1) as (_ & _ & B1 & _).
  rewrite <- (get_varint_rfc u B), G1, <- (get_varint_rfc p B1), G2, <- (get_varint_rfc q Bq). reflexivity.
Qed.
(* integer frames *)
Definition intfr (ty : Z) : bool := (ty =? GOAWAY) || (ty =? MAX_PUSH_ID).
(* the reader is in state s, has been given w and p is still to be read *)
Definition stands (s : cst) (w p : list Z) : Prop := exists u, bytes u /\ skips w u /\
  match c_rd s with
  | CType => exists t, u = t ++ p /\ proper t /\ c_rv s = rv_after t
  | CLen => exists t, get_varint u = Some (c_ty s, t ++ p) /\ proper t /\ c_rv s = rv_after t
  | CSetId | CSetVal | CPrio | CIgn => exists len q, header u (c_ty s) len (q ++ p) /\ intfr (c_ty s) = false /\ c_left s = len - zlen q /\ 0 <= len
  | CGoaway | CMaxPush => exists len q, header u (c_ty s) len (q ++ p) /\ intfr (c_ty s) = true /\ proper q /\ c_rv s = rv_after q
  | CElemId => exists len q, header u (c_ty s) len (q ++ p) /\ c_ty s = PRIORITY_UPDATE /\ c_left s = len - zlen q /\ proper q /\ c_rv s = rv_after q
  end.
Lemma proper_nil : proper []. Proof. split; [constructor|exact I]. Qed.
Lemma stands_init w : bytes w -> stands cst_init w w.
Proof. intros B. exists w. split; auto. split; [apply sk_nil|]. exists []. split; auto. split; [apply proper_nil|reflexivity]. Qed.
Lemma stands_more s w p x : bytes w -> bytes x -> stands s w p -> stands s (w ++ x) (p ++ x).
Proof.
  intros BW BX (u & BU & S & H). destruct (skips_app w u x BW BX S) as [S1 _]. exists (u ++ x). split; [apply bytes_app; auto|]. split; [exact S1|].
  destruct (c_rd s).
  - destruct H as (t & -> & H). exists t. rewrite app_assoc. auto.
  - destruct H as (t & G & H). destruct (get_app u x _ _ BU G) as (G1 & _). exists t. rewrite app_assoc. auto.
  - destruct H as (len & q & G & H). exists len, q. rewrite app_assoc. split; [apply header_app; auto|exact H].
  - destruct H as (len & q & G & H). exists len, q. rewrite app_assoc. split; [apply header_app; auto|exact H].
  - destruct H as (len & q & G & H). exists len, q. rewrite app_assoc. split; [apply header_app; auto|exact H].
  - destruct H as (len & q & G & H). exists len, q. rewrite app_assoc. split; [apply header_app; auto|exact H].
  - destruct H as (len & q & G & H). exists len, q. rewrite app_assoc. split; [apply header_app; auto|exact H].
  - destruct H as (len & q & G & H). exists len, q. rewrite app_assoc. split; [apply header_app; auto|exact H].
  - destruct H as (len & q & G & H). exists len, q. rewrite app_assoc. split; [apply header_app; auto|exact H].
Qed.

(* a frame is complete *)
Lemma stands_next s w u ty len q rest : bytes u -> skips w u -> header u ty len q -> c_rd s = CType -> c_rv s = rv_reset ->
  (if intfr ty then exists v, get_varint q = Some (v, rest) else len <= zlen q /\ rest = skipn (Z.to_nat len) q) -> stands s w rest.
Proof.
  intros BU S H R V N. assert (next_frame u = Some rest) as NF.
  { rewrite (header_next _ _ _ _ BU H). fold (intfr ty). destruct (intfr ty); [destruct N as [v ->]; reflexivity|]. destruct N as [L ->]. destruct (Z.leb_spec len (zlen q)); [reflexivity|lia]. }
  destruct (next_app u [] rest BU ltac:(constructor) NF) as [_ BR].
  exists rest. split; auto. split; [eapply skips_snoc; eauto|]. rewrite R. exists []. split; auto. split; [apply proper_nil|exact V].
Qed.
Lemma fr_rest rv l p v l' rest : fr_varint rv l p = FvDone v l' rest -> rest = skipn (Z.to_nat (l - l')) p.
Proof.
  unfold fr_varint. cbv zeta. destruct (_ <=? 0); [discriminate|]. destruct (rd_varint _ _ _) as [|v0 r| |]; try discriminate. intros [= _ <- <-]. f_equal. lia.
Qed.
Lemma fr_get q l p v l' rest : proper q -> bytes p -> p <> [] -> 0 < l -> fr_varint (rv_after q) l p = FvDone v l' rest -> get_varint (q ++ p) = Some (v, rest).
Proof.
  intros PQ B NE L. unfold fr_varint. cbv zeta. destruct (Z.leb_spec (Z.min l (zlen p)) 0); [discriminate|]. set (n := Z.min l (zlen p)) in *.
  assert (firstn (Z.to_nat n) p <> []) as NN. { intros E. apply (f_equal (@length Z)) in E. rewrite firstn_length in E. unfold zlen in *. cbn in E. lia. }
  pose proof (rd_varint_spec q (firstn (Z.to_nat n) p) (l <=? n) PQ (bytes_firstn _ _ B) NN) as [SP _]. rewrite SP.
  destruct (get_varint (q ++ firstn (Z.to_nat n) p)) as [[v0 r]|] eqn:G; [|destruct (_ <=? _); discriminate].
  intros [= <- _ <-]. assert (bytes (q ++ firstn (Z.to_nat n) p)) as BB by (apply bytes_app; split; [apply PQ|apply bytes_firstn; auto]).
  destruct (get_app _ (skipn (Z.to_nat n) p) _ _ BB G) as (G1 & _ & _ & _). rewrite <- app_assoc, firstn_skipn in G1. rewrite G1. do 2 f_equal.
  (* r is a suffix of firstn n p *)
  pose proof (rd_rest (rv_after q) (firstn (Z.to_nat n) p) (l <=? n) v0 r ltac:(rewrite SP, ?G; reflexivity)) as RR.
  assert (length (firstn (Z.to_nat n) p) = Z.to_nat n) as LF by (rewrite firstn_length; unfold zlen in *; lia).
  rewrite LF in RR. assert (zlen r <= n) as LR. { rewrite <- RR at 1. unfold zlen. rewrite skipn_length, LF. lia. }
  pose proof (zlen_nonneg _ r). replace (Z.to_nat (n - zlen r)) with (Z.to_nat n - length r)%nat by (unfold zlen in *; lia).
  rewrite <- (firstn_skipn (Z.to_nat n) p) at 2. rewrite skipn_app, LF. rewrite RR. replace (Z.to_nat n - length r - Z.to_nat n)%nat with O by lia. reflexivity.
Qed.
Lemma fr_wait q l p rv' l' : proper q -> bytes p -> p <> [] -> 0 < l -> fr_varint (rv_after q) l p = FvMore rv' l' -> l' = l - zlen p /\ rv' = rv_after (q ++ p) /\ proper (q ++ p).
Proof.
  intros PQ B NE L F. pose proof (fr_varint_ok (rv_after q) l p) as V. assert (rv_inv (rv_after q)) as RI by (exists q; split; auto; exact PQ).
  specialize (V RI L B NE). unfold fv_ok in V. rewrite F in V. destruct V as (_ & V2 & V3 & _). split; auto.
  unfold fr_varint in F. cbv zeta in F. destruct (Z.leb_spec (Z.min l (zlen p)) 0); [discriminate|]. replace (Z.min l (zlen p)) with (zlen p) in F by lia.
  rewrite zlen_length, firstn_all in F. pose proof (rd_varint_spec q p (l <=? zlen p) PQ B NE) as [SP PR]. rewrite SP in F.
  destruct (get_varint (q ++ p)) as [[v r]|]; [discriminate|]. destruct (l <=? zlen p); [discriminate|]. injection F as <- _. auto.
Qed.

Lemma rd_get t p v rest : proper t -> bytes p -> p <> [] -> rd_varint (rv_after t) p false = VDone v rest -> get_varint (t ++ p) = Some (v, rest).
Proof. intros PT B NE H. pose proof (rd_varint_spec t p false PT B NE) as [SP _]. rewrite SP in H. destruct (get_varint (t ++ p)) as [[v0 r]|]; [injection H as <- <-; reflexivity|discriminate]. Qed.
Lemma rd_wait t p rv' : proper t -> bytes p -> p <> [] -> rd_varint (rv_after t) p false = VMore rv' -> rv' = rv_after (t ++ p) /\ proper (t ++ p).
Proof. intros PT B NE H. pose proof (rd_varint_spec t p false PT B NE) as [SP PR]. rewrite SP in H. destruct (get_varint (t ++ p)) as [[v0 r]|]; [discriminate|]. injection H as <-. auto. Qed.
Lemma rd_shorter rv p v rest : rv_inv rv -> bytes p -> p <> [] -> rd_varint rv p false = VDone v rest -> 0 <= v <= max_varint /\ (length rest < length p)%nat.
Proof. intros RI B NE H. pose proof (rd_varint_ok rv p RI B NE) as V. unfold vres_ok in V. rewrite H in V. tauto. Qed.

Definition turn_ok (sv : bool) (s : cst) (w p : list Z) (r : sres cst cev) : Prop :=
  match r with
  | SGo s' rest b _ => stands s' w rest /\ (measure 3 c_rank s' rest < measure 3 c_rank s p)%nat /\ (b = true -> c_rd s' = CIgn)
  | SMore s' _ => stands s' w []
  | SStop _ _ _ => False
  | SErr _ _ _ => True
  | SAbort => sv = true /\ behind_element_id w
  end.
Lemma skipn_app_ge A (n : nat) (a b : list A) : (length a <= n)%nat -> skipn n (a ++ b) = skipn (n - length a) b.
Proof. intros H. rewrite skipn_app, skipn_all2 by lia. reflexivity. Qed.
Lemma proper_bytes' t : proper t -> bytes t. Proof. intros [H _]. exact H. Qed.

(* a state that only skips or collects *)
Lemma stands_in s w u ty len q p : bytes u -> skips w u -> header u ty len (q ++ p) -> c_ty s = ty -> intfr ty = false -> c_left s = len - zlen q -> 0 <= len ->
  (c_rd s = CSetId \/ c_rd s = CSetVal \/ c_rd s = CPrio \/ c_rd s = CIgn) -> stands s w p.
Proof. intros BU S H T I L LN R. exists u. split; auto. split; auto. subst ty. destruct R as [-> | [-> | [-> | ->]]]; exists len, q; auto. Qed.
Lemma ign_turn sv s w p : r_inv s -> bytes p -> c_rd s = CIgn -> stands s w p -> turn_ok sv s w p (c_ign s p).
Proof.
  intros (R1 & R2 & R3 & R4) B Rd (u & BU & S & H). rewrite Rd in H. destruct H as (len & q & H & I & L & LN). unfold c_ign. cbv zeta. pose proof (zlen_nonneg _ p).
  destruct (Z.eqb_spec (c_left s - Z.min (c_left s) (zlen p)) 0) as [E|E].
  - split; [|split; [|discriminate]].
    + eapply stands_next; [exact BU|exact S|exact H|reflexivity|reflexivity|]. rewrite I, zlen_app. split; [lia|]. pose proof (zlen_nonneg _ q).
      rewrite skipn_app_ge by (unfold zlen in *; lia). f_equal. unfold zlen in *. lia.
    + unfold measure, c_rank. rewrite Rd. cbn [c_rd c_reset]. rewrite skipn_length. lia.
  - eapply (stands_in _ w u (c_ty s) len (q ++ p) []); [exact BU|exact S|rewrite app_nil_r; exact H|reflexivity|exact I| |exact LN|right; right; right; reflexivity].
    cbn [c_left c_go]. rewrite zlen_app. lia.
Qed.
Lemma prio_turn E s w p : ce_server E = true -> r_inv s -> bytes p -> p <> [] -> c_rd s = CPrio -> stands s w p -> turn_ok (ce_server E) s w p (c_prio false E s p).
Proof.
  intros SV (R1 & R2 & R3 & R4) B NE Rd (u & BU & S & H). rewrite Rd in R4, H. destruct H as (len & q & H & I & L & LN). pose proof (zpos _ p NE) as ZP. pose proof (zlen_nonneg _ q) as ZQ.
  unfold c_prio. cbv zeta. set (n := Z.min (c_left s) (zlen p)) in *. destruct (Z.leb_spec n 0); [lia|].
  assert (c_left s = n -> forall value, turn_ok (ce_server E) s w p (match parse_priority (ce_sf E) {| p_urg := DEFAULT_URGENCY; p_inc := 0 |} value with
      | Some pr => if negb (ce_server E) then SAbort else if prio_allowed E (c_id s) then SGo (c_reset (c_with_buf s [])) (skipn (Z.to_nat n) p) false [CvPriority (c_id s) pr] else c_fail ERR_H3_ID_ERROR []
      | None => c_fail ERR_H3_GENERAL_PROTOCOL_ERROR [] end)) as D.
  { intros E1 value. destruct (parse_priority _ _ _); [|exact Logic.I]. rewrite SV. cbn [negb]. destruct (prio_allowed _ _); [|exact Logic.I]. split; [|split; [|discriminate]].
    - eapply stands_next; [exact BU|exact S|exact H|reflexivity|reflexivity|]. rewrite I, zlen_app. split; [lia|]. rewrite skipn_app_ge by (unfold zlen in *; lia). f_equal. unfold zlen in *. lia.
    - unfold measure, c_rank. rewrite Rd. cbn [c_rd c_reset]. rewrite skipn_length. lia. }
  assert (turn_ok (ce_server E) s w p (SGo (c_go s CIgn (c_rv s) (c_left s) (c_id s)) p true [])) as TL.
  { split; [|split; [|reflexivity]]; [|unfold measure, c_rank; rewrite Rd; cbn [c_rd c_go]; lia].
    eapply (stands_in _ w u (c_ty s) len q p); [exact BU|exact S|exact H|reflexivity|exact I|exact L|exact LN|right; right; right; reflexivity]. }
  destruct ((zlen (c_buf s) =? 0) && (c_left s =? n)) eqn:C1.
  - apply andb_true_iff in C1 as [_ C1]. apply Z.eqb_eq in C1. destruct (pri_bufsize <? n); [exact TL|apply D; exact C1].
  - destruct (pri_bufsize <? n + zlen (c_buf s)); [exact TL|]. destruct (Z.eqb_spec (c_left s) n) as [C2|C2]; [apply D; exact C2|].
    eapply (stands_in _ w u (c_ty s) len (q ++ p) []); [exact BU|exact S|rewrite app_nil_r; exact H|reflexivity|exact I| |exact LN|right; right; left; reflexivity].
    cbn [c_left c_go c_with_buf]. rewrite zlen_app. lia.
Qed.
Lemma cut_turn E s w p : ctl_inv (ce_server E) s -> bytes p -> stands s w p -> p <> [] \/ c_rd s = CIgn -> turn_ok (ce_server E) s w p (c_step false E s p).
Proof.
  intros ((R1 & R2 & R3 & R4) & _ & st & _ & L) B ST RUN. unfold c_step. destruct (c_rd s) eqn:Rd; try (destruct RUN as [NE|]; [|discriminate]); try (pose proof (zpos _ p NE) as ZP).
  - destruct ST as (u & BU & S & H). rewrite Rd in H. destruct H as (t & -> & PT & RV). rewrite RV in *. destruct (rd_varint (rv_after t) p false) as [rv'|v rest| |] eqn:RD.
    + destruct (rd_wait t p rv' PT B NE RD) as [-> PT']. exists (t ++ p). split; auto. split; auto. exists (t ++ p). rewrite app_nil_r. auto.
    + pose proof (rd_get t p v rest PT B NE RD) as G. destruct (rd_shorter _ p v rest R1 B NE RD) as [_ LT]. split; [|split; [apply meas_lt; auto|discriminate]].
      exists (t ++ p). split; auto. split; auto. exists []. split; [exact G|]. split; [apply proper_nil|reflexivity].
    + exact Logic.I.
    + exfalso. pose proof (rd_varint_ok _ p R1 B NE) as V. unfold vres_ok in V. rewrite RD in V. exact V.
  - destruct ST as (u & BU & S & H). rewrite Rd in H. destruct H as (t & GU & PT & RV). rewrite RV in *. destruct (rd_varint (rv_after t) p false) as [rv'|v rest| |] eqn:RD.
    + destruct (rd_wait t p rv' PT B NE RD) as [-> PT']. exists u. split; auto. split; auto. exists (t ++ p). rewrite app_nil_r. auto.
    + pose proof (rd_get t p v rest PT B NE RD) as G. destruct (rd_shorter _ p v rest R1 B NE RD) as [VR LT].
      assert (header u (c_ty s) v rest) as HD by (exists (t ++ p); auto).
      assert (forall s' ev, c_rd s' = CType -> c_rv s' = rv_reset -> intfr (c_ty s) = false -> v = 0 -> turn_ok (ce_server E) s w p (SGo s' rest false ev)) as D0.
      { intros s' ev A1 A2 A3 A4. split; [|split; [apply meas_lt; auto|discriminate]]. eapply stands_next; [exact BU|exact S|exact HD|exact A1|exact A2|]. rewrite A3, A4. split; [apply zlen_nonneg|reflexivity]. }
      assert (forall s' b ev, (c_rd s' = CSetId \/ c_rd s' = CIgn) -> (b = true -> c_rd s' = CIgn) -> c_ty s' = c_ty s -> c_left s' = v -> intfr (c_ty s) = false -> turn_ok (ce_server E) s w p (SGo s' rest b ev)) as D1.
      { intros s' b ev A1 A2 A3 A4 A5. split; [|split; [apply meas_lt; auto|exact A2]]. eapply (stands_in _ w u (c_ty s) v [] rest); [exact BU|exact S|exact HD|exact A3|exact A5|rewrite A4; cbn; lia|lia|tauto]. }
      assert (forall s' ev, (c_rd s' = CGoaway \/ c_rd s' = CMaxPush) -> c_ty s' = c_ty s -> c_rv s' = rv_reset -> intfr (c_ty s) = true -> turn_ok (ce_server E) s w p (SGo s' rest false ev)) as D2.
      { intros s' ev A1 A2 A3 A4. split; [|split; [apply meas_lt; auto|discriminate]]. exists u. split; auto. split; auto. rewrite A2. destruct A1 as [-> | ->]; exists v, []; (split; [exact HD|split; [exact A4|split; [apply proper_nil|exact A3]]]). }
      assert (forall s' ev, c_rd s' = CElemId -> c_ty s' = c_ty s -> c_rv s' = rv_reset -> c_left s' = v -> c_ty s = PRIORITY_UPDATE -> turn_ok (ce_server E) s w p (SGo s' rest false ev)) as D3.
      { intros s' ev A1 A2 A3 A4 A5. split; [|split; [apply meas_lt; auto|discriminate]]. exists u. split; auto. split; auto. rewrite A2, A1, A4. exists v, []. split; [exact HD|]. split; [exact A5|]. split; [cbn; lia|]. split; [apply proper_nil|exact A3]. }
      unfold c_frame_start. cbv zeta. cbn [c_ty c_set c_seen].
      destruct (negb (c_seen s) && _); [exact Logic.I|]. destruct (c_seen s && _); [exact Logic.I|].
      destruct (Z.eqb_spec (c_ty s) FRAME_SETTINGS) as [T1|T1].
      { assert (intfr (c_ty s) = false) as A by (rewrite T1; reflexivity). destruct (Z.eqb_spec v 0) as [V0|V0]; [apply D0; auto|apply D1; auto; discriminate]. }
      destruct (Z.eqb_spec (c_ty s) FRAME_GOAWAY) as [T2|T2].
      { assert (intfr (c_ty s) = true) as A by (rewrite T2; reflexivity). destruct (v =? 0); [exact Logic.I|apply D2; auto]. }
      destruct (Z.eqb_spec (c_ty s) FRAME_MAX_PUSH_ID) as [T3|T3].
      { assert (intfr (c_ty s) = true) as A by (rewrite T3; reflexivity). destruct (negb _); [exact Logic.I|]. destruct (v =? 0); [exact Logic.I|apply D2; auto]. }
      assert (intfr (c_ty s) = false) as A. { unfold intfr. destruct (Z.eqb_spec (c_ty s) GOAWAY); [exfalso; apply T2; auto|]. destruct (Z.eqb_spec (c_ty s) MAX_PUSH_ID); [exfalso; apply T3; auto|]. reflexivity. }
      destruct (Z.eqb_spec (c_ty s) FRAME_PRIORITY_UPDATE) as [T4|T4].
      { destruct (negb _); [exact Logic.I|]. destruct (v =? 0); [exact Logic.I|apply D3; auto]. }
      destruct (_ =? FRAME_PRIORITY_UPDATE_PUSH_ID); [exact Logic.I|]. destruct (c_refused _); [exact Logic.I|]. apply D1; auto.
    + exact Logic.I.
    + exfalso. pose proof (rd_varint_ok _ p R1 B NE) as V. unfold vres_ok in V. rewrite RD in V. exact V.
  - pose proof (fr_varint_ok _ _ p R1 R4 B NE) as V. unfold fv_ok in V. destruct ST as (u & BU & S & H). rewrite Rd in H. destruct H as (len & q & H & I & LF & LN).
    destruct (fr_varint (c_rv s) (c_left s) p) as [rv' l'|v l' rest| |] eqn:FV.
    + destruct V as (_ & _ & V3 & _). eapply (stands_in _ w u (c_ty s) len (q ++ p) []); [exact BU|exact S|rewrite app_nil_r; exact H|reflexivity|exact I| |exact LN|left; reflexivity]. cbn [c_left c_go]. rewrite zlen_app. lia.
    + destruct V as (_ & V2 & V3 & V4 & V5 & _). destruct (l' =? 0); [exact Logic.I|]. split; [|split; [apply meas_lt; auto|discriminate]].
      apply fr_rest in FV. assert (exists a, p = a ++ rest) as [a ->] by (exists (firstn (Z.to_nat (c_left s - l')) p); rewrite FV, firstn_skipn; reflexivity).
      eapply (stands_in _ w u (c_ty s) len (q ++ a) rest); [exact BU|exact S|rewrite <- app_assoc; exact H|reflexivity|exact I| |exact LN|right; left; reflexivity]. cbn [c_left c_go]. rewrite !zlen_app in *. lia.
    + exact Logic.I.
    + contradiction.
  - pose proof (fr_varint_ok _ _ p R1 R4 B NE) as V. unfold fv_ok in V. destruct ST as (u & BU & S & H). rewrite Rd in H. destruct H as (len & q & H & I & LF & LN).
    destruct (fr_varint (c_rv s) (c_left s) p) as [rv' l'|v l' rest| |] eqn:FV.
    + destruct V as (_ & _ & V3 & _). eapply (stands_in _ w u (c_ty s) len (q ++ p) []); [exact BU|exact S|rewrite app_nil_r; exact H|reflexivity|exact I| |exact LN|right; left; reflexivity]. cbn [c_left c_go]. rewrite zlen_app. lia.
    + destruct V as (_ & V2 & V3 & V4 & V5 & _). unfold settings_entry. 
      assert (forall r ev, turn_ok (ce_server E) s w p (if l' =? 0 then SGo (c_reset (c_with_set s r)) rest false (ev ++ [CvSettings r]) else SGo (c_go (c_with_set s r) CSetId rv_reset l' (c_id s)) rest false ev)) as D.
      { intros r ev. apply fr_rest in FV. assert (exists a, p = a ++ rest) as [a EA] by (exists (firstn (Z.to_nat (c_left s - l')) p); rewrite FV, firstn_skipn; reflexivity).
        destruct (Z.eqb_spec l' 0) as [L0|L0]; (split; [|split; [apply meas_lt; auto|discriminate]]).
        - eapply stands_next; [exact BU|exact S|exact H|reflexivity|reflexivity|]. rewrite I. rewrite EA in *. rewrite !zlen_app in *. pose proof (zlen_nonneg _ rest). pose proof (zlen_nonneg _ q). pose proof (zlen_nonneg _ a). split; [lia|].
          rewrite app_assoc. replace (Z.to_nat len) with (length (q ++ a)) by (rewrite app_length; unfold zlen in *; lia). rewrite skipn_app, skipn_all, Nat.sub_diag. reflexivity.
        - eapply (stands_in _ w u (c_ty s) len (q ++ a) rest); [exact BU|exact S|rewrite <- app_assoc, <- EA; exact H|reflexivity|exact I| |exact LN|left; reflexivity]. cbn [c_left c_go c_with_set]. rewrite EA in *. rewrite !zlen_app in *. lia. }
      repeat match goal with |- context [if ?b then _ else _] => match b with context [c_set s] => destruct b | context [c_id s] => destruct b | context [v =? _] => destruct b | negb _ => destruct b end; try exact Logic.I; try apply D end.
    + exact Logic.I.
    + contradiction.
  - destruct ST as (u & BU & S & H). rewrite Rd in H. destruct H as (len & q & H & I & PQ & RV). rewrite RV in *. pose proof (fr_varint_ok _ _ p R1 R4 B NE) as V. unfold fv_ok in V.
    destruct (fr_varint (rv_after q) (c_left s) p) as [rv' l'|v l' rest| |] eqn:FV.
    + destruct (fr_wait q _ p rv' l' PQ B NE R4 FV) as (_ & -> & PQ'). exists u. split; auto. split; auto. exists len, (q ++ p). rewrite app_nil_r. auto.
    + destruct V as (_ & V2 & V3 & V4 & V5 & _). destruct (negb _ && _); [exact Logic.I|]. destruct (_ <? _); [exact Logic.I|]. split; [|split; [apply meas_lt; auto|discriminate]].
      eapply stands_next; [exact BU|exact S|exact H|reflexivity|reflexivity|]. rewrite I. exists v. exact (fr_get q _ p v l' rest PQ B NE R4 FV).
    + exact Logic.I.
    + contradiction.
  - destruct ST as (u & BU & S & H). rewrite Rd in H. destruct H as (len & q & H & I & PQ & RV). rewrite RV in *. pose proof (fr_varint_ok _ _ p R1 R4 B NE) as V. unfold fv_ok in V.
    destruct (fr_varint (rv_after q) (c_left s) p) as [rv' l'|v l' rest| |] eqn:FV.
    + destruct (fr_wait q _ p rv' l' PQ B NE R4 FV) as (_ & -> & PQ'). exists u. split; auto. split; auto. exists len, (q ++ p). rewrite app_nil_r. auto.
    + destruct V as (_ & V2 & V3 & V4 & V5 & _). destruct (_ <? _); [exact Logic.I|]. split; [|split; [apply meas_lt; auto|discriminate]].
      eapply stands_next; [exact BU|exact S|exact H|reflexivity|reflexivity|]. rewrite I. exists v. exact (fr_get q _ p v l' rest PQ B NE R4 FV).
    + exact Logic.I.
    + contradiction.
  - destruct L as (_ & _ & SV). rewrite SV. cbn [negb andb]. destruct ST as (u & BU & S & H). rewrite Rd in H. destruct H as (len & q & H & I & LF & PQ & RV). rewrite RV in *. pose proof (fr_varint_ok _ _ p R1 R4 B NE) as V. unfold fv_ok in V.
    destruct (fr_varint (rv_after q) (c_left s) p) as [rv' l'|v l' rest| |] eqn:FV.
    + destruct (fr_wait q _ p rv' l' PQ B NE R4 FV) as (LW & -> & PQ'). exists u. split; auto. split; auto. exists len, (q ++ p). rewrite app_nil_r. cbn [c_left c_go]. rewrite zlen_app. split; [exact H|]. split; [exact I|]. split; [lia|auto].
    + destruct V as (_ & V2 & V3 & V4 & V5 & _). pose proof (fr_get q _ p v l' rest PQ B NE R4 FV) as G. apply fr_rest in FV.
      assert (exists a, p = a ++ rest) as [a EA] by (exists (firstn (Z.to_nat (c_left s - l')) p); rewrite FV, firstn_skipn; reflexivity).
      pose proof (zlen_nonneg _ rest). pose proof (zlen_nonneg _ q). pose proof (zlen_nonneg _ a).
      destruct (Z.eqb_spec l' 0) as [L0|L0].
      * destruct (prio_allowed E v); [|exact Logic.I]. split; [|split; [apply meas_lt; auto|discriminate]].
        eapply stands_next; [exact BU|exact S|exact H|reflexivity|reflexivity|]. rewrite I. change (intfr PRIORITY_UPDATE) with false. cbv iota. rewrite EA in *. rewrite !zlen_app in *. split; [lia|].
        rewrite app_assoc. replace (Z.to_nat len) with (length (q ++ a)) by (rewrite app_length; unfold zlen in *; lia). rewrite skipn_app, skipn_all, Nat.sub_diag. reflexivity.
      * destruct (Z.eqb_spec (zlen rest) 0) as [Z0|Z0].
        -- assert (rest = []) as RN by (destruct rest; [reflexivity|rewrite zlen_cons in Z0; pose proof (zlen_nonneg _ rest); lia]). rewrite RN in *.
           split; [reflexivity|]. eapply skips_behind; [exact S|]. destruct H as (pp & HA & HB). destruct (get_app u [] _ _ BU HA) as (_ & _ & B1 & _). destruct (get_app pp [] _ _ B1 HB) as (_ & _ & B2 & _).
           rewrite get_varint_rfc in HA, HB, G by auto. rewrite I in HA. eapply be_here; [exact HA|exact HB|exact G|]. rewrite zlen_app. cbn in V5. lia.
        -- split; [|split; [apply meas_lt; auto|discriminate]].
           eapply (stands_in _ w u (c_ty s) len (q ++ a) rest); [exact BU|exact S|rewrite <- app_assoc, <- EA; exact H|reflexivity|rewrite I; reflexivity| | |right; right; left; reflexivity].
           ++ cbn [c_left c_go]. rewrite EA in *. rewrite !zlen_app in *. lia.
           ++ lia.
    + exact Logic.I.
    + contradiction.
  - destruct L as (_ & _ & SV). apply prio_turn; auto. split; auto. rewrite Rd. auto.
  - apply ign_turn; auto. split; auto. rewrite Rd. auto.
Qed.
(* a whole piece *)
Lemma cut_run E f : forall s w p busy, ctl_inv (ce_server E) s -> bytes p -> stands s w p -> (busy = true -> c_rd s = CIgn) -> (measure 3 c_rank s p < f)%nat ->
  match run_fuel (c_step false E) f s p busy with ROk s' _ => stands s' w [] | RStop _ _ _ => False | RErr _ _ _ => True | RAbort => ce_server E = true /\ behind_element_id w end.
Proof.
  induction f as [|f IH]; intros s w p busy CI B ST BU MF; [lia|].
  assert (D : (p = [] /\ busy = false) \/ ((p <> [] \/ busy = true) /\ run_fuel (c_step false E) (S f) s p busy = turn (c_step false E) s p (run_fuel (c_step false E) f))).
  { destruct p; [destruct busy; [right|left]|right]; auto. split; [left; discriminate|reflexivity]. }
  destruct D as [[-> ->]|[RUN0 D]]; [exact ST|].
  assert (p <> [] \/ c_rd s = CIgn) as RUN by (destruct RUN0 as [R0|R0]; auto).
  rewrite D. unfold turn. pose proof (cut_turn E s w p CI B ST RUN) as T. pose proof CI as (R & EI & st & L). pose proof (step_trace E s p st R B L) as T1. pose proof (step_elem E s p R EI B) as T2.
  destruct (c_step false E s p) as [s1 r1 b1 e1|s1 e1|s1 r1 e1|e s1 e1|]; cbn [strace turn_ok] in *; auto.
  destruct T as (T3 & T4 & T5). destruct T1 as (B1 & I1 & st1 & C1 & L1). destruct T2 as [T2 _].
  assert (ctl_inv (ce_server E) s1) as CI1 by (split; auto; split; auto; exists st1; auto).
  pose proof (IH s1 w r1 b1 CI1 B1 T3 T5 ltac:(lia)) as R2. destruct (run_fuel (c_step false E) f s1 r1 b1); cbn [rev_]; auto.
Qed.
Theorem cut_read E s w p : ctl_inv (ce_server E) s -> bytes w -> bytes p -> stands s w [] ->
  match read_control false E s p with ROk s' _ => stands s' (w ++ p) [] | RStop _ _ _ => False | RErr _ _ _ => True | RAbort => ce_server E = true /\ behind_element_id (w ++ p) end.
Proof.
  intros CI BW B ST. unfold read_control, run. apply cut_run; auto; [|discriminate]. apply (stands_more s w [] p); auto.
Qed.
