(* One request stream over time (BidiHist.v): what has been handed over is the meaning of the bytes received. *)
From Verif Require Import Base BaseLemmas ConvModel ConvSpec ConvProofs RdVarint QpackTabModel QpackDynProofs Chunk QpackDecModel QpackDecProofs QpackSecProofs
  QpackHistModel QpackHistProofs QpackCutProofs SecGood HttpModel HttpSpec BidiModel BidiHist BidiSpec BidiProofs BidiRun BidiDec BidiCut
  RfcQpackSpec RfcStreamSpec IdealSec SecMean MeanStream MeanGrow.
Open Scope Z_scope.

Section Rx.
Variables (max n0 id : Z).
Hypothesis Hmax : 0 <= max.
Notation M := (M max n0 id).
Notation partly := (partly max n0).
Notation tab_ok := (tab_ok max n0).

Definition RX (H : list field) (x : rx) (l : list Z) (evs : list bev) : Prop :=
  exists pre suf, l = pre ++ suf /\ bytes pre /\ (x_shut x = false -> suf = inbytes (x_inq x)) /\ M H (x_st x) pre evs.
Lemma M_dec H s d pre evs : M H s pre evs -> M H (st_dec s d) pre evs.
Proof. apply M_ph; reflexivity. Qed.
Lemma M_blk H s b pre evs : M H s pre evs -> M H (st_blk s b) pre evs.
Proof. apply M_ph; reflexivity. Qed.
Lemma partly_more H l its x : partly H l its -> partly H (l ++ x) its.
Proof. apply partly_app. Qed.

(* what a result says, for a stream that has received l and shown evs in all *)
Definition RX_res (H : list field) (x : rx) (l : list Z) (evs : list bev) (r : xres) : Prop :=
  match r with
  | XOk x' ev | XGone x' ev => RX H x' l (evs ++ ev) /\ d_ctx (b_dec (x_st x')) = d_ctx (b_dec (x_st x))
  | XErr _ ev => partly H l (content (evs ++ ev))
  | XAbort => True
  end.
Lemma recv_RX H E x src fin l evs : x_inv x -> bytes src -> tab_ok H (d_ctx (b_dec (x_st x))) -> RX H x l evs ->
  RX_res H x (l ++ src) evs (recv false E x src fin).
Proof.
  intros [X1 X2 X3 X4] B TO (pre & suf & El & Bp & Sf & HM). unfold recv. destruct ((zlen src =? 0) && negb fin) eqn:Z0.
  { apply andb_true_iff in Z0. destruct Z0 as (Z0 & _). apply zlen0_nil in Z0. subst src. cbn [RX_res]. rewrite !app_nil_r. split; [|reflexivity]. exists pre, suf. auto. }
  cbv zeta. unfold read_bidi. cbn [x_st x_shut x_inq x_id x_eof x_closed x_ret x_def].
  destruct (x_shut x) eqn:SH.
  { cbn [RX_res x_st x_add]. rewrite app_nil_r. split; [|reflexivity]. exists pre, (suf ++ src). cbn [x_st x_add x_shut x_inq]. rewrite El, app_assoc. split; [reflexivity|]. split; [auto|]. split; [discriminate|auto]. }
  specialize (Sf eq_refl). destruct (b_blk (x_st x)) eqn:BK.
  { cbn [RX_res x_st x_add]. rewrite app_nil_r. split; [|reflexivity]. exists pre, (suf ++ src). cbn [x_st x_add x_shut x_inq]. rewrite El, app_assoc. split; [reflexivity|]. split; [auto|]. split; [|auto].
    intros _. rewrite Sf. destruct (zlen src =? 0) eqn:Z1; [apply zlen0_nil in Z1; subst src; apply app_nil_r|]. symmetry. apply (buffer_ok _ _ X2 B). }
  specialize (X3 eq_refl). rewrite X3 in Sf. cbn in Sf. subst suf. rewrite app_nil_r in El. subst l.
  pose proof (read_M max n0 id H E (x_st x) pre src evs fin X1 Bp B TO HM) as R.
  assert (Bps : bytes (pre ++ src)) by (apply bytes_app; auto).
  destruct (b_read false E (x_st x) src fin) as [s' ev|s' rest ev|e s' ev|]; cbn [M_out RX_res x_add x_st] in *; auto.
  - destruct R as (R & D). split; [|exact D]. exists (pre ++ src), []. cbn [x_st x_add x_shut x_inq]. rewrite X3, app_nil_r. auto.
  - destruct R as (y & Ey & R & D). split; [|exact D]. exists (pre ++ y), rest. cbn [x_st x_add x_shut x_inq]. rewrite Ey, app_assoc. split; [reflexivity|].
    rewrite Ey in B. apply bytes_app in B. destruct B as (By & Br). split; [apply bytes_app; auto|]. split; [|exact R]. intros _. rewrite X3. cbn [buffered_len inbytes concat map zlen length]. cbn.
    destruct (zlen rest =? 0) eqn:Z1; cbn [negb andb]; [apply zlen0_nil in Z1; auto|]. symmetry. destruct (buffer_ok [] rest) as (_ & Q); auto. constructor.
Qed.
Lemma proc_RX H E f : forall x l evs, b_inv (x_st x) -> bufs_ok (x_inq x) -> b_blk (x_st x) = false -> tab_ok H (d_ctx (b_dec (x_st x))) -> RX H x l evs ->
  RX_res H x l evs (process_blocked false f E x).
Proof.
  induction f as [|f IH]; intros x l evs X1 X2 BK TO HR; cbn [process_blocked]; [exact Logic.I|].
  destruct (x_inq x) as [|[buf room] q] eqn:Q; [cbn [RX_res]; rewrite app_nil_r; auto|].
  inversion X2 as [|? ? [N B] X2']; subst. cbn [fst] in N, B. destruct HR as (pre & suf & El & Bp & Sf & HM).
  assert (REC : forall y n nc ev, b_inv (x_st y) -> b_blk (x_st y) = false -> d_ctx (b_dec (x_st y)) = d_ctx (b_dec (x_st x)) ->
    RX H (x_add y (if zlen (skipn n buf) =? 0 then q else (skipn n buf, room) :: q) 0 nc) l (evs ++ ev) ->
    RX_res H x l evs (x_evs ev (process_blocked false f E (x_add y (if zlen (skipn n buf) =? 0 then q else (skipn n buf, room) :: q) 0 nc)))).
  { intros y n nc ev Y1 Y2 Y3 Y4. set (z := x_add y _ 0 nc) in *. specialize (IH z l (evs ++ ev)).
    assert (BO : bufs_ok (if zlen (skipn n buf) =? 0 then q else (skipn n buf, room) :: q)).
    { destruct (zlen (skipn n buf) =? 0) eqn:Z0; [auto|]. constructor; [|auto]. cbn [fst]. split; [intros EQ; rewrite EQ in Z0; discriminate|]. apply bytes_skipn; auto. }
    specialize (IH Y1 BO Y2 ltac:(unfold z; cbn [x_add x_st]; rewrite Y3; exact TO) Y4).
    destruct (process_blocked false f E z) as [x' e'|x' e'|e e'|]; cbn [x_evs RX_res] in *; auto; rewrite ?app_assoc; auto; destruct IH as (I1 & I2); (split; [exact I1|]);
      (transitivity (d_ctx (b_dec (x_st z))); [exact I2|exact Y3]). }
  unfold read_bidi. destruct (x_shut x) eqn:SH.
  - rewrite Q. cbn [x_add x_st]. rewrite BK. apply REC; auto. rewrite app_nil_r. exists pre, suf. cbn [x_st x_add x_shut x_inq]. rewrite SH. split; [auto|]. split; [auto|]. split; [discriminate|auto].
  - specialize (Sf eq_refl). rewrite BK. set (fn := _ && x_eof x). pose proof (b_read_blk false E (x_st x) buf fn) as BB.
    pose proof (b_read_good_pre false E (x_st x) buf fn X1 B) as GD. pose proof (read_M max n0 id H E (x_st x) pre buf evs fn X1 Bp B TO HM) as R.
    rewrite Q in Sf. unfold inbytes in Sf. cbn [map concat fst] in Sf. fold (inbytes q) in Sf.
    destruct (b_read false E (x_st x) buf fn) as [s' e'|s' rest e'|e s' e'|] eqn:RD; try exact Logic.I; cbn [x_inq x_add x_st M_out] in *.
    + rewrite Q. cbn [x_add x_st]. rewrite BB by auto. destruct R as (R & D).
      apply (REC (mk_rx (x_id x) s' ((buf, room) :: q) false (x_eof x) (x_closed x) (x_ret x) (x_def x))); cbn [x_st x_inq]; auto.
      exists (pre ++ buf), (inbytes q). cbn [x_st x_add x_shut x_inq]. rewrite El, Sf, app_assoc. split; [reflexivity|]. split; [apply bytes_app; auto|]. split; [|exact R].
      intros _. rewrite skip_all_len. reflexivity.
    + assert (QQ : (if negb (zlen rest =? 0) && (buffered_len (x_inq x) =? 0) then buffer_data (x_inq x) rest else x_inq x) = (buf, room) :: q).
      { assert (BL : (buffered_len (x_inq x) =? 0) = false).
        { rewrite Q. unfold buffered_len, inbytes. cbn [map concat fst]. rewrite zlen_app. destruct buf as [|b0 buf]; [congruence|]. apply Z.eqb_neq. unfold zlen. cbn [length]. lia. }
        rewrite BL, andb_false_r. exact Q. }
      rewrite QQ. cbn [x_add x_st]. rewrite BB. destruct R as (y & Ey & R & D). cbn [RX_res x_st x_add]. split; [|exact D].
      assert (SK : skipn (Z.to_nat (zlen buf - zlen rest)) buf = rest).
      { rewrite Ey. replace (Z.to_nat (zlen (y ++ rest) - zlen rest)) with (length y) by (rewrite zlen_app; unfold zlen; lia). rewrite skipn_app, skipn_all, Nat.sub_diag. reflexivity. }
      exists (pre ++ y), (rest ++ inbytes q). cbn [x_st x_add x_shut x_inq]. split; [rewrite El, Sf, Ey, <- !app_assoc; reflexivity|].
      rewrite Ey in B. apply bytes_app in B. split; [apply bytes_app; tauto|]. split; [|exact R]. intros _. rewrite SK.
      destruct (zlen rest =? 0) eqn:Z1; [apply zlen0_nil in Z1; subst rest; reflexivity|]. reflexivity.
    + cbn [RX_res]. rewrite El, Sf, app_assoc. apply partly_more. exact R.
Qed.
Lemma resume_RX H E x l evs : b_inv (x_st x) -> bufs_ok (x_inq x) -> b_blk (x_st x) = false -> tab_ok H (d_ctx (b_dec (x_st x))) -> RX H x l evs ->
  match resume false E x with
  | XGone x' ev => (exists pre suf, l = pre ++ suf /\ bytes pre /\ M H (x_st x') pre (evs ++ ev)) /\ d_ctx (b_dec (x_st x')) = d_ctx (b_dec (x_st x))
  | r => RX_res H x l evs r
  end.
Proof.
  intros X1 X2 X3 TO HR. unfold resume. pose proof (proc_RX H E (S (length (x_inq x))) x l evs X1 X2 X3 TO HR) as P.
  destruct (process_blocked _ _ _ _) as [x' ev|x' ev| |]; auto.
  - destruct (_ && _); [|exact P]. unfold x_delete. cbn [RX_res x_add x_st] in *. destruct P as ((pre & suf & A & Bp & _ & HM) & D). split; [|exact D]. exists pre, suf. auto.
  - cbn [RX_res] in P. destruct P as ((pre & suf & A & Bp & _ & HM) & D). split; [|exact D]. exists pre, suf. auto.
Qed.

(* ---- the table that belongs to a decoder ---- *)
Definition made (d : dec) (H : list field) : Prop := seen_by max d /\ insertions max (d_seen d) H.
Lemma made_tab d H : made d H -> n0 <= zlen H -> tab_ok H (d_ctx d).
Proof.
  intros (S & I) L. destruct (seen_table max d Hmax S) as (H' & I' & F & Be & N & M). rewrite (insertions_fun _ _ _ _ (sb_bytes _ _ S) I I') in *.
  split; [exact Be|]. auto.
Qed.
Lemma made_ex d : seen_by max d -> exists H, made d H.
Proof. intros S. destruct (seen_table max d Hmax S) as (H & I & _). exists H. split; auto. Qed.
Lemma made_grow d d' H : dec_evolves d d' -> made d H -> exists X, made d' (H ++ X) /\ Forall fbytes (H ++ X).
Proof.
  intros E (S & I). destruct (evolves_seen max d d' E S) as (S' & x & Bx & Es). destruct (seen_table max d' Hmax S') as (H' & I' & F & _).
  assert (B : bytes (d_seen d ++ x)) by (apply bytes_app; split; [apply S|exact Bx]). pose proof I' as I2. rewrite Es in I2. destruct (insertions_grow _ _ _ _ _ B I I2) as (X & ->).
  exists X. split; [split; auto|exact F].
Qed.
Lemma made_fun d H H' : made d H -> made d H' -> H = H'.
Proof. intros (S & I) (_ & I'). exact (insertions_fun _ _ _ _ (sb_bytes _ _ S) I I'). Qed.
Lemma RX_grow H X x l evs : Forall fbytes (H ++ X) -> RX H x l evs -> RX (H ++ X) x l evs.
Proof. intros F (pre & suf & A & B & C & D). exists pre, suf. split; [auto|]. split; [auto|]. split; [auto|]. apply grow_M; auto. Qed.

(* what the results of a history say: d is the decoder at the end *)
Definition GX (d : dec) (x : rx) (l : list Z) (evs : list bev) : Prop := exists H, made d H /\ n0 <= zlen H /\ RX H x l evs.
Definition dec_then (x : rx) (o : rop) : dec := match o with ROther _ d => d | _ => b_dec (x_st x) end.
Definition GX_res (d : dec) (l : list Z) (evs : list bev) (r : xres) : Prop :=
  match r with
  | XOk x' ev => GX (b_dec (x_st x')) x' l (evs ++ ev)
  | XGone x' ev => exists H pre suf, made (b_dec (x_st x')) H /\ l = pre ++ suf /\ partly H pre (content (evs ++ ev))
  | XErr _ ev => exists H, made d H /\ partly H l (content (evs ++ ev))
  | XAbort => True
  end.
Lemma seen_eq d d' : dec_evolves d d' -> d_ctx d' = d_ctx d -> forall H, made d H -> n0 <= zlen H -> made d' H.
Proof.
  intros E C H MD L. destruct (made_grow _ _ _ E MD) as (X & MD' & _). pose proof (made_tab _ _ MD L) as (_ & N & _).
  pose proof (made_tab _ _ MD' ltac:(rewrite zlen_app; pose proof (zlen_nonneg _ X); lia)) as (_ & N' & _). rewrite C, N, zlen_app in N'.
  assert (zlen X = 0) by lia. assert (X = []) by (destruct X; [reflexivity|unfold zlen in *; cbn [length] in *; lia]). subst X. rewrite app_nil_r in MD'. exact MD'.
Qed.
Lemma GX_partly d x l evs : GX d x l evs -> exists H pre suf, made d H /\ l = pre ++ suf /\ partly H pre (content evs).
Proof.
  intros (H & MD & L & pre & suf & E & B & _ & HM). exists H, pre, suf. split; [exact MD|]. split; [exact E|]. pose proof (made_tab _ _ MD L) as TO.
  eapply M_partly; [apply TO|apply TO|exact B|exact HM].
Qed.
Lemma step_GX E x o l evs : x_inv x -> rop_bytes o -> rop_ok E x o -> GX (b_dec (x_st x)) x l evs ->
  GX_res (dec_then x o) (l ++ received [o]) evs (snd (x_step false E x o)).
Proof.
  intros X B OK (H & MD & L & HR). pose proof (made_tab _ _ MD L) as TO. destruct o as [src fin|E' d| |]; cbn [received x_step snd rop_bytes rop_ok dec_then] in *; rewrite ?app_nil_r.
  - pose proof (recv_RX H E x src fin l evs X B TO HR) as R. destruct (recv false E x src fin) as [x' ev|x' ev|e ev|] eqn:RV; cbn [RX_res GX_res] in *; auto.
    + destruct R as (R & _). destruct (recv_dchg E x src fin x' ev X B RV) as (D1 & D2 & _). exists H. split; [exact (seen_eq _ _ D1 D2 _ MD L)|]. auto.
    + exfalso. clear - RV. unfold recv in RV. destruct (_ && _); [discriminate|]. cbv zeta in RV. destruct (read_bidi _ _ _ _ _); discriminate.
    + exists H. auto.
  - destruct OK as (_ & EV). destruct (made_grow _ _ _ EV MD) as (Y & MD' & F). assert (L' : n0 <= zlen (H ++ Y)) by (rewrite zlen_app; pose proof (zlen_nonneg _ Y); lia).
    apply (RX_grow H Y) in HR; [|exact F]. assert (D0 : dec_ok (b_dec (x_st x))) by (destruct MD as (S & _); split; [apply S|apply S]).
    destruct (evolves_ok _ _ EV D0) as (D1 & CL). destruct X as [X1 X2 X3 X4].
    assert (HR2 : RX (H ++ Y) (x_set_st x (st_dec (x_st x) d)) l evs) by (destruct HR as (pre & suf & P1 & P2 & P3 & P4); exists pre, suf; cbn [x_st x_set_st x_shut x_inq]; auto using M_dec).
    destruct (b_blk (st_dec (x_st x) d) && _) eqn:BK; cbn [snd].
    + assert (HR3 : RX (H ++ Y) (x_set_st x (st_blk (st_dec (x_st x) d) false)) l evs) by (destruct HR as (pre & suf & P1 & P2 & P3 & P4); exists pre, suf; split; [auto|]; split; [auto|]; split; [auto|]; apply M_blk, M_dec; exact P4).
      pose proof (st_blk_inv _ false (st_dec_inv (x_st x) d X1 D1 CL)) as I1.
      pose proof (resume_RX (H ++ Y) E' (x_set_st x (st_blk (st_dec (x_st x) d) false)) l evs I1 X2 eq_refl (made_tab _ _ MD' L') HR3) as R.
      pose proof (resume_dchg E' (x_set_st x (st_blk (st_dec (x_st x) d) false)) I1 X2 eq_refl) as DC.
      destruct (resume _ _ _) as [x' ev|x' ev|e ev|]; cbn [RX_res GX_res] in *; auto.
      * destruct R as (R & _). destruct DC as (DC1 & DC2 & _). cbn [x_set_st x_st st_blk st_dec b_dec] in DC1, DC2. exists (H ++ Y). split; [exact (seen_eq _ _ DC1 DC2 _ MD' L')|]. auto.
      * destruct R as ((pre & suf & E1 & Bp & HM) & _). destruct DC as (DC1 & DC2 & _). cbn [x_set_st x_st st_blk st_dec b_dec] in DC1, DC2. exists (H ++ Y), pre, suf. split; [exact (seen_eq _ _ DC1 DC2 _ MD' L')|].
        split; [exact E1|]. pose proof (made_tab _ _ MD' L') as TO'. eapply M_partly; [apply TO'|apply TO'|exact Bp|exact HM].
      * exists (H ++ Y). auto.
    + cbn [GX_res]. rewrite app_nil_r. exists (H ++ Y). split; [exact MD'|]. auto.
  - destruct (x_shut x) eqn:SH; [cbn [GX_res]; rewrite app_nil_r; exists H; auto|].
    destruct (dec_cancel_stream (b_dec (x_st x)) (x_id x)) as [d|e|] eqn:CA; cbn [GX_res]; auto; [|rewrite app_nil_r; destruct HR as (pre & suf & -> & Bp & _ & HM); exists H; split; [exact MD|]; apply partly_more; eapply M_partly; [apply TO|apply TO|exact Bp|exact HM]]. rewrite app_nil_r. exists H. cbn [x_st b_dec st_dec].
    assert (EV : dec_evolves (b_dec (x_st x)) d) by (eapply de_cancel; [exact CA|constructor]).
    split. { eapply seen_eq; [exact EV| |exact MD|exact L]. unfold dec_cancel_stream in CA. destruct (_ || _); [discriminate|]. destruct (dbuf_overflow _); [discriminate|]. injection CA as <-. reflexivity. }
    split; [exact L|]. destruct HR as (pre & suf & P1 & P2 & P3 & P4). exists pre, suf. cbn [x_st x_shut]. split; [auto|]. split; [auto|]. split; [discriminate|]. apply M_dec. exact P4.
  - destruct (b_blk (x_st x)) eqn:BK; cbn [GX_res x_delete].
    + rewrite app_nil_r. exists H. split; [exact MD|]. split; [exact L|]. exact HR.
    + rewrite app_nil_r. apply GX_partly with (x := x). exists H. auto.
Qed.
End Rx.

Section Run.
Variables (max n0 id : Z).
Hypothesis Hmax : 0 <= max.
Lemma step_xinv E x o x' ev : x_inv x -> rop_bytes o -> rop_ok E x o -> dec_ok (b_dec (x_st x)) -> snd (x_step false E x o) = XOk x' ev -> x_inv x'.
Proof.
  intros X B OK D S. destruct (step_same E x x o X X (same_rx_refl x) B OK) as (_ & _ & R & _). destruct (step_pre E x o) as (_ & P).
  rewrite S in P. destruct P as [P|(e & v1 & v2 & P & _)]; [|discriminate]. rewrite <- P in R. exact R.
Qed.
(* the decoder a history ends with *)
Fixpoint dec_last (E : benv) (x : rx) (ops : list rop) : dec :=
  match ops with
  | [] => b_dec (x_st x)
  | o :: ops' => match x_step false E x o with (E', XOk x' _) => dec_last E' x' ops' | _ => dec_then x o end
  end.
Theorem run_GX ops : forall E x l evs, x_inv x -> orop_bytes ops -> hist_ok E x ops -> GX max n0 id (b_dec (x_st x)) x l evs ->
  match x_run false E x ops with
  | XOk _ _ => GX_res max n0 id (dec_last E x ops) (l ++ received ops) evs (x_run false E x ops)
  | r => exists a b, l ++ received ops = a ++ b /\ GX_res max n0 id (dec_last E x ops) a evs r
  end.
Proof.
  induction ops as [|o ops IH]; intros E x l evs X B OK G.
  - cbn [x_run received]. rewrite app_nil_r. cbn [GX_res]. rewrite app_nil_r. exact G.
  - inversion B as [|? ? B1 B2]; subst. cbn [hist_ok] in OK. destruct OK as (O1 & O2).
    pose proof (step_GX max n0 id Hmax E x o l evs X B1 O1 G) as S.
    assert (D : dec_ok (b_dec (x_st x))) by (destruct G as (H & (Sb & _) & _); split; apply Sb).
    assert (RC : received (o :: ops) = received [o] ++ received ops) by (destruct o; cbn [received]; rewrite ?app_nil_r; reflexivity).
    pose proof (step_xinv E x o) as XI. cbn [x_run dec_last]. destruct (x_step false E x o) as [E' [x' ev|x' ev|e ev|]] eqn:ST; cbn [snd] in *.
    + specialize (XI x' ev X B1 O1 D eq_refl). cbn [GX_res] in S. specialize (IH E' x' (l ++ received [o]) (evs ++ ev) XI B2 O2 S). rewrite RC, app_assoc.
      destruct (x_run false E' x' ops) as [x2 e2|x2 e2|e e2|]; cbn [x_evs] in *.
      * cbn [GX_res] in *. rewrite app_assoc. exact IH.
      * destruct IH as (a & b & E1 & IH). exists a, b. split; [exact E1|]. cbn [GX_res] in *. rewrite app_assoc. exact IH.
      * destruct IH as (a & b & E1 & IH). exists a, b. split; [exact E1|]. cbn [GX_res] in *. rewrite app_assoc. exact IH.
      * destruct IH as (a & b & E1 & IH). exists a, b. auto.
    + exists (l ++ received [o]), (received ops). rewrite RC, app_assoc. split; [reflexivity|exact S].
    + exists (l ++ received [o]), (received ops). rewrite RC, app_assoc. split; [reflexivity|exact S].
    + exists (l ++ received [o]), (received ops). rewrite RC, app_assoc. split; [reflexivity|exact S].
Qed.
End Run.
