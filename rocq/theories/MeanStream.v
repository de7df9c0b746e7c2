(* Request streams: what has been handed over is the meaning of what has been read (RfcStreamSpec). *)
From Verif Require Import Base BaseLemmas ConvModel ConvSpec ConvProofs RdVarint QpackTabModel QpackDynProofs Chunk QpackDecModel QpackDecProofs QpackSecProofs
  QpackHistModel QpackHistProofs QpackCutProofs SecGood SecSuffix HttpModel HttpSpec HttpProofs HttpResProofs BidiModel BidiProofs BidiRun BidiDec
  RfcQpackSpec RfcPrim RfcSec RfcMain RfcStreamSpec IdealSec SecMean.
Open Scope Z_scope.

(* ---- dropped fields ---- *)
Lemma drop_step sf s f rq ext s' : good_field f -> on_header sf s f rq false ext = (s', HDrop) -> unwanted f.
Proof.
  intros (T & Bn & Bv). destruct f as [n v t ff]. unfold unwanted. cbn [q_name q_value] in *.
  assert (RG : forall s s', regular_step s n v = (s', HDrop) -> n <> [] -> ~ pseudo n -> bad_field (n, v) \/ n = n_clen).
  { intros s1 s1' E NN NP. pose proof (regular_step_spec _ _ _ _ _ Bn Bv NN E) as X. left. unfold bad_field. cbn [fst snd]. cbn in X. tauto. }
  destruct rq.
  - rewrite on_header_req by auto. cbn [q_name q_value]. unfold kreq, pseudo_step. cbn [orb]. cbv zeta.
    destruct (kind_of n) eqn:K; try discriminate;
      try (destruct (h_nopseudo s); [discriminate|]; match goal with |- (if ?b then _ else _) = _ -> _ => destruct b; discriminate end).
    + kname K. destruct (check_authority v) eqn:C; cbn [negb].
      * destruct (h_host s || is_nil v); discriminate.
      * intros _. left. right; right. split; [reflexivity|]. cbn [snd]. rewrite <- check_authority_spec by auto. congruence.
    + kname K. auto.
    + destruct (strieq STRAILERS v); discriminate.
    + kname K. unfold prio_step. pose proof (check_value_spec v Bv) as VS. destruct (check_header_value v); cbn [negb orb].
      * destruct (h_badprio (hs_nopseudo s)); [discriminate|]. destruct (parse_priority _ _ _); discriminate.
      * intros _. left. right; left. cbn [snd]. intros X. apply VS in X. discriminate.
    + apply kind_empty in K. subst n. intros _. left. left. cbn. split; [intros (? & X); discriminate|intros [X _]; congruence].
    + intros E. destruct (kind_regular n K). eapply RG; eauto.
  - rewrite on_header_res by auto. cbn [q_name q_value]. unfold kres. cbn [orb]. cbv zeta.
    destruct (kind_of n) eqn:K; try discriminate.
    + destruct (h_nopseudo s); [discriminate|]. destruct (_ || _); [discriminate|]. destruct (negb _); [discriminate|]. destruct (_ || _); discriminate.
    + kname K. intros E. eapply RG; [exact E|discriminate|intros (? & X); discriminate].
    + kname K. auto.
    + destruct (strieq STRAILERS v); discriminate.
    + kname K. intros E. eapply RG; [exact E|discriminate|intros (? & X); discriminate].
    + apply kind_empty in K. subst n. intros _. left. left. cbn. split; [intros (? & X); discriminate|intros [X _]; congruence].
    + intros E. destruct (kind_regular n K). eapply RG; eauto.
Qed.
Lemma on_header_drop sf s f rq tr ext s' : good_field f -> on_header sf s f rq tr ext = (s', HDrop) -> unwanted f.
Proof. destruct tr; [|apply drop_step]. intros G E. pose proof (trailer_step _ _ _ _ _ _ _ G E) as X. exact X. Qed.
Lemma on_headers_drops sf rq tr cp l : forall h h' out ok, Forall good_field l -> on_headers sf h l rq tr cp = (h', out, ok) ->
  exists k1 k2, l = k1 ++ k2 /\ drops unwanted k1 out /\ (ok = true -> k2 = []).
Proof.
  induction l as [|f l IH]; intros h h' out ok G E; cbn [on_headers] in E.
  - injection E as <- <- <-. exists [], []. split; [reflexivity|]. split; [constructor|auto].
  - inversion G as [|? ? Gf Gl]; subst. destruct (on_header sf h f rq tr cp) as [h1 []] eqn:E1.
    + destruct (on_headers sf h1 l rq tr cp) as [[h2 o2] k2] eqn:E2. injection E as <- <- <-. destruct (IH _ _ _ _ Gl E2) as (a & b & -> & D & K).
      exists (f :: a), b. split; [reflexivity|]. split; [constructor; auto|auto].
    + destruct (IH _ _ _ _ Gl E) as (a & b & -> & D & K). exists (f :: a), b. split; [reflexivity|]. split; [|auto]. constructor 3; [eapply on_header_drop; eauto|auto].
    + injection E as <- <- <-. exists [], (f :: l). split; [reflexivity|]. split; [constructor|discriminate].
Qed.
Lemma drops_app A (bad : A -> Prop) a b x y : drops bad a x -> drops bad b y -> drops bad (a ++ b) (x ++ y).
Proof. induction 1; intros; cbn; [auto|constructor; auto|constructor 3; auto]. Qed.

(* ---- frame headers ---- *)
Lemma take_exact_cut A n (l : list A) a r : take_exact n l = Some (a, r) -> l = a ++ r /\ length a = n /\ forall y, take_exact n (a ++ y) = Some (a, y).
Proof.
  intros E. apply take_exact_spec in E. destruct E as (E1 & E2). split; [exact E1|]. split; [exact E2|]. intros y. apply take_exact_spec. auto.
Qed.
Lemma rfc_varint_cut l v r : bytes l -> rfc_varint l = Some (v, r) -> exists b h, l = b :: h ++ r /\ forall y, rfc_varint (b :: h ++ y) = Some (v, y).
Proof.
  unfold rfc_varint. destruct l as [|b t]; [discriminate|]. intros B. cbv zeta. destruct (take_exact _ (b :: t)) as [[bs rest]|] eqn:E; [|discriminate]. intros [= <- <-].
  pose proof (take_exact_cut _ _ _ _ _ E) as (E1 & E2 & E3). destruct bs as [|b' h].
  { exfalso. cbn [length] in E2. apply bytes_cons in B. destruct B as (B & _). unfold is_byte in B. pose proof (Z.pow_pos_nonneg 2 (b / 64) ltac:(lia) ltac:(apply Z.div_pos; lia)). lia. }
  injection E1 as <- ->. exists b, h. split; [reflexivity|]. intros y. specialize (E3 y). cbn [app] in E3. rewrite E3. reflexivity.
Qed.
Lemma rfc_varint_bytes l v r : bytes l -> rfc_varint l = Some (v, r) -> bytes r.
Proof. intros B E. destruct (rfc_varint_cut _ _ _ B E) as (b & h & -> & _). change (b :: h ++ r) with ((b :: h) ++ r) in B. apply bytes_app in B. apply B. Qed.
Lemma frame_head_cut l ty len p : bytes l -> frame_head l ty len p -> exists h, l = h ++ p /\ forall y, frame_head (h ++ y) ty len y.
Proof.
  intros B (m & E1 & E2). pose proof (rfc_varint_bytes _ _ _ B E1) as Bm. destruct (rfc_varint_cut _ _ _ B E1) as (b & h & -> & C1). destruct (rfc_varint_cut _ _ _ Bm E2) as (b2 & h2 & -> & C2).
  exists (b :: h ++ b2 :: h2). split; [cbn [app]; rewrite <- app_assoc; reflexivity|]. intros y. exists (b2 :: h2 ++ y). split; [cbn [app]; rewrite <- app_assoc; apply C1|apply C2].
Qed.
Lemma frame_head_app l ty len p x : bytes l -> frame_head l ty len p -> frame_head (l ++ x) ty len (p ++ x).
Proof. intros B F. destruct (frame_head_cut _ _ _ _ B F) as (h & -> & C). rewrite <- app_assoc. apply C. Qed.
Lemma frame_head_bytes l ty len p : bytes l -> frame_head l ty len p -> bytes p.
Proof. intros B (m & E1 & E2). eauto using rfc_varint_bytes. Qed.
Lemma frame_head_fun l ty len p ty' len' p' : frame_head l ty len p -> frame_head l ty' len' p' -> ty = ty' /\ len = len' /\ p = p'.
Proof. intros (m & E1 & E2) (m' & E1' & E2'). rewrite E1 in E1'. injection E1' as <- <-. rewrite E2 in E2'. injection E2' as <- <-. auto. Qed.
Lemma frame_head_get l ty len p m : bytes l -> get_varint l = Some (ty, m) -> get_varint m = Some (len, p) -> frame_head l ty len p.
Proof.
  intros B E1 E2. rewrite get_varint_rfc in E1 by auto. exists m. split; [auto|]. rewrite get_varint_rfc in E2; [auto|]. eapply rfc_varint_bytes; eauto.
Qed.

Section Stream.
Variables (max n0 id : Z).
Notation means := (means max).
Notation frames := (frames max).
Notation part_frame := (part_frame max).
Lemma frames_app H l its r x : bytes l -> frames H n0 l its r -> frames H n0 (l ++ x) its (r ++ x).
Proof.
  intros B F. revert B. induction F as [l|l ty len p r it its r' FH L FM FS IH]; intros B; [constructor|].
  pose proof (frame_head_bytes _ _ _ _ B FH) as Bp. apply bytes_app in Bp. econstructor; [|exact L|exact FM|apply IH; apply Bp].
  rewrite app_assoc. apply frame_head_app; auto.
Qed.
Lemma frames_trans H l i1 r i2 r' : frames H n0 l i1 r -> frames H n0 r i2 r' -> frames H n0 l (i1 ++ i2) r'.
Proof. induction 1; intros G; [auto|]. rewrite <- app_assoc. econstructor; eauto. Qed.

(* the frame being read: its bytes so far and what they mean *)
Inductive curf (H : list field) (s : bst) : list Z -> list item -> Prop :=
| cf_type cur : b_rd s = FType -> proper cur -> get_varint cur = None -> b_rv s = rv_after cur -> b_sctx s = sctx_init id -> curf H s cur []
| cf_len cur lb : b_rd s = FLen -> get_varint cur = Some (b_ty s, lb) -> proper lb -> get_varint lb = None -> b_rv s = rv_after lb -> b_sctx s = sctx_init id -> curf H s cur []
| cf_data cur len p : b_rd s = FData -> frame_head cur 0 len p -> b_left s = len - zlen p -> 0 < b_left s -> b_sctx s = sctx_init id -> curf H s cur (map Byte p)
| cf_other cur ty len p : b_rd s = FIgnFrame -> frame_head cur ty len p -> ty <> 0 -> ty <> 1 -> b_left s = len - zlen p -> 0 <= b_left s -> b_sctx s = sctx_init id -> curf H s cur []
| cf_headers cur len p qs ks : b_rd s = FHeaders -> frame_head cur 1 len p -> 0 < len -> b_left s = len - zlen p -> 0 <= b_left s -> s_id (b_sctx s) = id ->
    sec_rel max n0 id H (b_sctx s) p qs -> drops unwanted qs ks -> (b_left s = 0 -> qs = []) -> curf H s cur (Begin :: map Fld ks).
Definition partly (H : list field) (l : list Z) (its : list item) : Prop := exists a b, l = a ++ b /\ means H n0 a its.
Inductive M (H : list field) (s : bst) (pre : list Z) (evs : list bev) : Prop :=
| M_cur don cur its1 its2 : pre = don ++ cur -> frames H n0 don its1 [] -> curf H s cur its2 -> content evs = its1 ++ its2 -> M H s pre evs
| M_rest : b_rd s = FIgnRest -> partly H pre (content evs) -> M H s pre evs.
Lemma content_app a b : content (a ++ b) = content a ++ content b.
Proof. induction a as [|e a IH]; [reflexivity|]. cbn [content app]. rewrite IH, app_assoc. reflexivity. Qed.
Definition tab_ok (H : list field) (c : ctx) : Prop := below c H /\ next_absidx c = zlen H /\ hard_max c = max /\ Forall fbytes H /\ n0 <= zlen H.
Lemma curf_part H s cur its : Forall fbytes H -> n0 <= zlen H -> bytes cur -> curf H s cur its -> part_frame H n0 cur its.
Proof.
  intros F N B C. inversion C; subst.
  - apply pf_head. intros ty len p (m & E & _). rewrite <- get_varint_rfc in E by auto. congruence.
  - apply pf_head. intros ty len p (m & E & E2). rewrite <- get_varint_rfc in E by auto. rewrite H1 in E. injection E as <- <-.
    rewrite <- get_varint_rfc in E2; [congruence|]. apply (proj1 H2).
  - eapply pf_data; eauto. lia.
  - eapply pf_other; eauto. lia.
  - eapply pf_headers; eauto; [lia|]. eapply sec_rel_part; eauto.
Qed.
Lemma curf_all H s cur its : Forall fbytes H -> n0 <= zlen H -> bytes cur -> curf H s cur its -> forall len p, frame_head cur 1 len p -> zlen p = len -> its = [Begin] /\ part_section max H n0 p [].
Proof.
  intros F N B C len p HD L. pose proof (curf_part H s cur its F N B C) as PF. destruct C as [? ? ? G|? ? ? G ? G2|? len0 p0 ? HD0|? ty0 len0 p0 ? HD0|? len0 p0 qs ks ? HD0 ? L0 ? ? SR D Z0].
  1, 2: exfalso; inversion PF as [NH|? ? X|? ? ? ? X|? ? ? X]; subst; [exact (NH _ _ _ HD)|..]; destruct (frame_head_fun _ _ _ _ _ _ _ HD X); congruence.
  - destruct (frame_head_fun _ _ _ _ _ _ _ HD HD0) as (X & _). discriminate X.
  - destruct (frame_head_fun _ _ _ _ _ _ _ HD HD0) as (X & _). congruence.
  - destruct (frame_head_fun _ _ _ _ _ _ _ HD HD0) as (_ & E1 & E2). subst. rewrite (Z0 ltac:(lia)) in *. inversion D; subst. split; [reflexivity|]. eapply sec_rel_part; eauto.
Qed.
Lemma M_partly H s pre evs : Forall fbytes H -> n0 <= zlen H -> bytes pre -> M H s pre evs -> partly H pre (content evs).
Proof.
  intros F N B [don cur its1 its2 E FS C Ev|_ P]; [|exact P]. exists pre, []. split; [rewrite app_nil_r; reflexivity|]. subst pre. apply bytes_app in B.
  exists its1, cur, its2. split; [apply (frames_app H don its1 [] cur (proj1 B) FS)|]. split; [eapply curf_part; eauto; apply B|exact Ev].
Qed.
Lemma partly_app H l x its : partly H l its -> partly H (l ++ x) its.
Proof. intros (a & b & -> & P). exists a, (b ++ x). split; [rewrite app_assoc; reflexivity|exact P]. Qed.
(* the beginning of a header section *)
Lemma partly_headers H don its1 cur len p qs ks : bytes don -> bytes cur -> frames H n0 don its1 [] -> frame_head cur 1 len p -> 0 < len -> zlen p <= len ->
  (exists a b, p = a ++ b /\ part_section max H n0 a qs) -> drops unwanted qs ks -> partly H (don ++ cur) (its1 ++ Begin :: map Fld ks).
Proof.
  intros Bd Bc FS FH L L2 (a & b & -> & PS) D. destruct (frame_head_cut _ _ _ _ Bc FH) as (h & -> & C). exists (don ++ h ++ a), b. split; [rewrite <- !app_assoc; reflexivity|].
  exists its1, (h ++ a), (Begin :: map Fld ks). split; [apply (frames_app H don its1 [] (h ++ a) Bd FS)|]. split; [|reflexivity].
  eapply pf_headers; [apply C|exact L| |exact PS|exact D]. rewrite zlen_app in L2. pose proof (zlen_nonneg _ b). lia.
Qed.
(* from a complete frame to the next *)
Lemma M_next H don cur its1 ty len p it s' evs : bytes don -> bytes cur -> frames H n0 don its1 [] -> frame_head cur ty len p -> zlen p = len -> frame_means max H n0 ty p it ->
  b_rd s' = FType -> b_rv s' = rv_reset -> b_sctx s' = sctx_init id -> content evs = its1 ++ it -> M H s' (don ++ cur) evs.
Proof.
  intros Bd Bc FS FH L FM Rd Rv Sc Ev. apply M_cur with (don := don ++ cur) (cur := []) (its1 := its1 ++ it) (its2 := []).
  - rewrite app_nil_r; reflexivity.
  - eapply frames_trans; [apply (frames_app H don its1 [] cur Bd FS)|]. rewrite <- (app_nil_r it). econstructor; [|exact L|exact FM|constructor]. rewrite app_nil_r. exact FH.
  - apply cf_type; auto. split; [constructor|exact Logic.I].
  - rewrite app_nil_r. exact Ev.
Qed.
Lemma proper_nil : proper []. Proof. split; [constructor|exact Logic.I]. Qed.

(* ---- one turn ---- *)
Definition M_res (H : list field) (s : bst) (pre p : list Z) (evs : list bev) (r : sres bst bev) : Prop :=
  match r with
  | SGo s' rest _ ev | SStop s' rest ev => exists y, p = y ++ rest /\ M H s' (pre ++ y) (evs ++ ev) /\ d_ctx (b_dec s') = d_ctx (b_dec s)
  | SMore s' ev => M H s' (pre ++ p) (evs ++ ev) /\ d_ctx (b_dec s') = d_ctx (b_dec s)
  | SErr _ _ ev => partly H (pre ++ p) (content (evs ++ ev))
  | SAbort => True
  end.
Lemma content_data l : content (map BvData l) = map Byte l.
Proof. induction l as [|b l IH]; [reflexivity|]. cbn. rewrite IH. reflexivity. Qed.
Lemma content_fields (tr : bool) l : content (map (if tr then BvTrailer else BvHeader) l) = map Fld l.
Proof. induction l as [|b l IH]; [reflexivity|]. destruct tr; cbn in *; rewrite IH; reflexivity. Qed.

Section Turn.
Variables (H : list field) (E : benv) (s : bst) (pre p : list Z) (evs : list bev).
Hypothesis (I : b_inv s) (Bpre : bytes pre) (Bp : bytes p) (TO : tab_ok H (d_ctx (b_dec s))) (HM : M H s pre evs).
Let F : Forall fbytes H. Proof. apply TO. Qed.
Let N : n0 <= zlen H. Proof. apply TO. Qed.
Lemma fail_M e : M_res H s pre p evs (b_fail e []).
Proof. cbn. rewrite app_nil_r. apply partly_app. eapply M_partly; eauto. Qed.

Lemma data_M (Rd : b_rd s = FData) : M_res H s pre p evs (data_step false E s p).
Proof.
  unfold data_step. cbv zeta. set (n := Z.min (b_left s) (zlen p)). destruct (on_data_chunk (b_http s) n) as [h ok]. destruct ok; [|apply fail_M].
  destruct HM as [don cur its1 its2 E0 FS C Ev|R _]; [|congruence]. inversion C; subst; try congruence.
  apply bytes_app in Bpre. destruct Bpre as (Bd & Bc). pose proof (zlen_nonneg _ p) as Zp.
  assert (Hn : 0 <= n <= zlen p) by (unfold n; lia).
  assert (Ep : p = firstn (Z.to_nat n) p ++ skipn (Z.to_nat n) p) by (symmetry; apply firstn_skipn).
  assert (Lf : zlen (firstn (Z.to_nat n) p) = n) by (unfold zlen in *; rewrite firstn_length; lia).
  set (ch := firstn (Z.to_nat n) p) in *. set (rs := skipn (Z.to_nat n) p) in *.
  assert (CE : content (evs ++ map BvData ch) = its1 ++ map Byte (p0 ++ ch)) by (rewrite content_app, Ev, content_data, map_app, app_assoc; reflexivity).
  destruct (Z.eqb_spec (b_left s - n) 0) as [Z0|Z0].
  - destruct (transit (e_req E) (b_ph s) h HeDataEnd) as [ph| |]; try exact Logic.I.
    exists ch. split; [exact Ep|]. split; [|reflexivity]. rewrite <- app_assoc. eapply M_next with (ty := 0) (len := len) (p := p0 ++ ch) (it := map Byte (p0 ++ ch)); eauto.
    + apply bytes_app; split; [auto|]. rewrite Ep in Bp. apply bytes_app in Bp. apply Bp.
    + apply frame_head_app; eauto.
    + rewrite zlen_app. lia.
    + constructor.
  - assert (Ec : ch = p). { unfold ch, n in *. rewrite Z.min_r by lia. rewrite zlen_length. apply firstn_all. }
    split; [|reflexivity]. rewrite <- app_assoc. rewrite <- Ec at 1.
    apply M_cur with (don := don) (cur := cur ++ ch) (its1 := its1) (its2 := map Byte (p0 ++ ch)); auto.
    eapply cf_data; [reflexivity|apply frame_head_app; eauto|cbn; rewrite zlen_app; lia|cbn; lia|auto].
Qed.
Lemma frame_start_M len rest c y lb : b_rd s = FLen -> p = y ++ rest ->
  (forall don cur its1 its2, pre = don ++ cur -> frames H n0 don its1 [] -> curf H s cur its2 -> content evs = its1 ++ its2 ->
     bytes don -> bytes cur -> its2 = [] /\ b_sctx s = sctx_init id /\ frame_head (cur ++ y) (b_ty s) len []) -> lb = lb :> list Z -> 0 <= len ->
  M_res H s pre p evs (frame_start E s len rest c).
Proof.
  intros Rd Ep K _ Ln. destruct HM as [don cur its1 its2 E0 FS C Ev|R _]; [|congruence].
  assert (B2 : bytes don /\ bytes cur) by (rewrite E0 in Bpre; apply bytes_app in Bpre; exact Bpre). destruct B2 as (Bd & Bc).
  assert (By : bytes y) by (rewrite Ep in Bp; apply bytes_app in Bp; apply Bp).
  destruct (K don cur its1 its2 E0 FS C Ev Bd Bc) as (-> & Sc & FH). rewrite app_nil_r in Ev.
  assert (Bcy : bytes (cur ++ y)) by (apply bytes_app; auto).
  unfold frame_start. cbv zeta. change FRAME_DATA with 0. change FRAME_HEADERS with 1.
  destruct (Z.eqb_spec (b_ty s) 0) as [T0|T0].
  { destruct (transit _ _ _ HeDataBegin) as [ph|e|]; [|apply fail_M|exact Logic.I]. destruct (Z.eqb_spec len 0) as [L0|L0].
    - destruct (transit _ _ _ HeDataEnd) as [ph'|e|]; try exact Logic.I. exists y. split; [exact Ep|]. split; [|reflexivity]. rewrite E0, <- app_assoc.
      eapply M_next with (ty := 0) (len := len) (p := []) (it := map Byte []); auto; [exact FS|rewrite <- T0; exact FH|constructor|]. rewrite content_app, Ev. reflexivity.
    - exists y. split; [exact Ep|]. split; [|reflexivity]. rewrite E0, <- app_assoc. apply M_cur with (don := don) (cur := cur ++ y) (its1 := its1) (its2 := map Byte []); auto.
      + eapply cf_data; [reflexivity|rewrite <- T0; exact FH|cbn; lia|cbn; lia|auto].
      + rewrite content_app, Ev. reflexivity. }
  destruct (Z.eqb_spec (b_ty s) 1) as [T1|T1].
  { destruct (transit _ _ _ HeHeadersBegin) as [ph|e|]; [|apply fail_M|exact Logic.I]. destruct (Z.eqb_spec len 0) as [L0|L0].
    - destruct (empty_headers_allowed ph); [|apply fail_M]. destruct (transit _ _ _ HeHeadersEnd) as [ph'|e|]; try exact Logic.I. exists y. split; [exact Ep|]. split; [|reflexivity]. rewrite E0, <- app_assoc.
      eapply M_next with (ty := 1) (len := len) (p := []) (it := []); auto; [exact FS|rewrite <- T1; exact FH|constructor|]. rewrite content_app, Ev. reflexivity.
    - assert (G : forall tr : bool, M H (b_setrd s FHeaders rv_reset (b_ty s) len ph c) (pre ++ y) (evs ++ [BvFrame (b_ty s) len] ++ [if tr then BvBeginTrailers else BvBeginHeaders])).
      { intros tr. rewrite E0, <- app_assoc. apply M_cur with (don := don) (cur := cur ++ y) (its1 := its1) (its2 := [Begin]); auto.
        - change [Begin] with (Begin :: map Fld []). eapply cf_headers; [reflexivity|rewrite <- T1; exact FH|lia|cbn; lia|cbn; lia|cbn [b_sctx b_setrd]; rewrite Sc; reflexivity| |constructor|reflexivity]. cbn [b_sctx b_setrd]. rewrite Sc. apply sec_rel_init.
        - rewrite content_app, Ev. destruct tr; reflexivity. }
      destruct ph; try exact Logic.I; exists y; (split; [exact Ep|]); (split; [|reflexivity]); [apply (G false)|apply (G true)]. }
  destruct (refused (b_ty s)); [apply fail_M|]. exists y. split; [exact Ep|]. split; [|reflexivity]. rewrite E0, <- app_assoc.
  apply M_cur with (don := don) (cur := cur ++ y) (its1 := its1) (its2 := []); auto.
  - eapply cf_other; [reflexivity|exact FH|auto|auto|cbn; lia|cbn; lia|auto].
  - rewrite content_app, Ev. reflexivity.
Qed.

Lemma headers_M (Rd : b_rd s = FHeaders) : M_res H s pre p evs (headers_step E s p).
Proof.
  destruct HM as [don cur its1 its2 E0 FS C Ev|R _]; [|congruence]. inversion C; subst; try congruence.
  rename p0 into ps. assert (B2 : bytes don /\ bytes cur) by (apply bytes_app in Bpre; exact Bpre). destruct B2 as (Bd & Bc). pose proof (zlen_nonneg _ p) as Zp.
  unfold headers_step. cbv zeta. set (n := Z.min (b_left s) (zlen p)).
  assert (Hn : 0 <= n <= zlen p) by (unfold n; lia).
  assert (Ep : p = firstn (Z.to_nat n) p ++ skipn (Z.to_nat n) p) by (symmetry; apply firstn_skipn).
  assert (Lf : zlen (firstn (Z.to_nat n) p) = n) by (unfold zlen in *; rewrite firstn_length; lia).
  set (ch := firstn (Z.to_nat n) p) in *. set (rs := skipn (Z.to_nat n) p) in *.
  assert (B3 : bytes ch /\ bytes rs) by (rewrite Ep in Bp; apply bytes_app in Bp; exact Bp). destruct B3 as (Bch & Brs).
  pose proof (bi_dec s I) as EI. pose proof (bi_bad s I) as Bad. pose proof (bi_sec s I) as SO.
  pose proof (dsec_good (b_dec s) (b_sctx s) ch (n =? b_left s) EI Bad SO Bch) as (GF & DG).
  pose proof TO as (TB & TN & TH & _ & _).
  rewrite (decode_section_run (b_dec s) (b_sctx s) ch (n =? b_left s) (be_ok _ _ TB) Bad (proj1 SO) Bch) in *.
  assert (SR0 : sec_rel max n0 id H (b_sctx s) ps qs) by assumption. assert (Id0 : s_id (b_sctx s) = id) by assumption.
  pose proof (sec_rel_run max n0 id (d_ctx (b_dec s)) H TB F TN TH N (b_sctx s) ps qs ch (proj1 SO) Bch SR0) as ADV.
  set (R := rs_run (d_ctx (b_dec s)) (b_sctx s) ch) in *.
  assert (PART : exists a b, ps ++ ch = a ++ b /\ part_section max H n0 a (qs ++ fst (sec_result (b_dec s) (n =? b_left s) R))).
  { destruct R as [sc q|sc r0 q|e sc q|]; cbn [sec_result fst advanced] in *.
    - exists (ps ++ ch), []. split; [rewrite app_nil_r; reflexivity|]. eapply sec_rel_part; eauto.
    - destruct ADV as (-> & _ & _ & y & -> & SR). exists (ps ++ y), r0. split; [rewrite app_assoc; reflexivity|]. rewrite app_nil_r. eapply sec_rel_part; eauto.
    - exact ADV.
    - destruct ADV. }
  set (trl := match b_ph s with HpTrailersBegin => true | _ => false end).
  assert (FHx : frame_head (cur ++ ch) 1 len (ps ++ ch)) by (apply frame_head_app; auto).
  assert (Bcc : bytes (cur ++ ch)) by (apply bytes_app; auto).
  assert (Lx : zlen (ps ++ ch) <= len) by (rewrite zlen_app; unfold n in Lf; lia).
  destruct (sec_result (b_dec s) (n =? b_left s) R) as [vs r] eqn:SR. cbn [fst snd] in GF, DG, PART.
  destruct (on_headers (e_sf E) (b_http s) vs (e_req E) trl (e_ext E)) as [[h out] ok] eqn:OH.
  destruct (on_headers_drops _ _ _ _ _ _ _ _ _ GF OH) as (k1 & k2 & Ek & Dk & Kk).
  assert (PK : exists a b, ps ++ ch = a ++ b /\ part_section max H n0 a (qs ++ k1)).
  { destruct PART as (a & b & Eab & PS). destruct (part_section_cut max n0 H a (qs ++ vs) (qs ++ k1) k2 N PS ltac:(rewrite Ek, app_assoc; reflexivity)) as (a1 & b1 & -> & PS1).
    exists a1, (b1 ++ b). split; [rewrite Eab, <- app_assoc; reflexivity|exact PS1]. }
  assert (DD : drops unwanted (qs ++ k1) (ks ++ out)) by (apply drops_app; auto).
  assert (CE : forall ev, content ev = [] -> content (evs ++ map (if trl then BvTrailer else BvHeader) out ++ ev) = its1 ++ Begin :: map Fld (ks ++ out)).
  { intros ev C0. rewrite !content_app, Ev, content_fields, C0, app_nil_r, map_app, <- app_assoc. reflexivity. }
  assert (CE0 : content (evs ++ map (if trl then BvTrailer else BvHeader) out) = its1 ++ Begin :: map Fld (ks ++ out)).
  { rewrite <- (CE [] eq_refl), app_nil_r. reflexivity. }
  assert (PP : partly H ((don ++ cur) ++ p) (its1 ++ Begin :: map Fld (ks ++ out))).
  { rewrite Ep. rewrite app_assoc. apply partly_app. rewrite <- app_assoc. eapply partly_headers; eauto. }
  assert (MAL : forall sx h0, d_ctx (b_dec sx) = d_ctx (b_dec s) -> M_res H s (don ++ cur) p evs (malformed sx h0 p (map (if trl then BvTrailer else BvHeader) out))).
  { intros sx h0 Dx. unfold malformed. split; [|exact Dx]. apply M_rest; [reflexivity|]. rewrite CE by reflexivity. exact PP. }
  destruct ok; cbn [negb]; [|apply MAL; reflexivity]. rewrite (Kk eq_refl), app_nil_r in Ek. subst k1. clear Kk k2.
  destruct R as [sc q|sc r0 q|e sc q|] eqn:ER; cbn [sec_result advanced] in *; injection SR as <- <-.
  - unfold rq_end in *. destruct (Z.eqb_spec n (b_left s)) as [Ln|Ln].
    + destruct (read_request_fin (b_dec s) sc) as [d'|e|] eqn:RF; [|cbn; rewrite CE0; exact PP|exact Logic.I].
      assert (St : s_state sc = RsOpcode) by (unfold read_request_fin in RF; destruct (s_state sc); congruence).
      assert (Ids : s_id sc = id) by (destruct DG as (_ & _ & Di & _); congruence).
      unfold headers_end. cbv zeta. fold trl.
      destruct (match b_ph s with HpHeadersBegin => Ok (if e_req E then on_request_headers h else on_response_headers h) | HpTrailersBegin => Ok (h, true) | _ => Abort end) as [[h' [|]]|e|]; [| |exact Logic.I|exact Logic.I].
      * destruct (transit (e_req E) (b_ph s) h' HeHeadersEnd) as [ph|e|]; try exact Logic.I.
        exists ch. split; [exact Ep|]. split; [|apply (fin_ctx _ _ _ RF)]. rewrite <- app_assoc.
        eapply M_next with (ty := 1) (len := len) (p := ps ++ ch) (it := Begin :: map Fld (ks ++ out) ++ [Finish]); auto.
        -- exact FS.
        -- rewrite zlen_app. lia.
        -- apply fm_headers with (qs := qs ++ q); [|eapply sec_rel_whole; eauto|exact DD]. intros E9. apply (f_equal zlen) in E9. rewrite zlen_app, zlen_nil in E9. lia.
        -- cbn [b_sctx]. rewrite Ids. reflexivity.
        -- rewrite app_assoc. rewrite content_app, CE0. rewrite content_app.
           match goal with |- context [content (if ?b then [BvPriority ?x] else [])] => replace (content (if b then [BvPriority x] else [])) with (@nil item) by (destruct b; reflexivity) end.
           rewrite app_nil_l, <- app_assoc. destruct trl; reflexivity.
      * apply MAL. cbn [b_dec]. apply (fin_ctx _ _ _ RF).
    + assert (Ec : ch = p). { unfold ch, n. unfold n in Ln. rewrite Z.min_r by lia. rewrite zlen_length. apply firstn_all. }
      rewrite (proj2 (Z.eqb_neq (b_left s - n) 0)) by lia.
      split; [|reflexivity]. rewrite <- app_assoc. rewrite <- Ec at 1.
      apply M_cur with (don := don) (cur := cur ++ ch) (its1 := its1) (its2 := Begin :: map Fld (ks ++ out)); auto.
      eapply cf_headers; [reflexivity|exact FHx|auto|cbn [b_left]; rewrite zlen_app; lia|cbn [b_left]; unfold n; lia|cbn [b_sctx]; destruct DG as (_ & _ & Di); congruence|exact ADV|exact DD|cbn [b_left]; lia].
  - destruct ADV as (-> & Q0 & Lt & y & Ey & SRy). destruct (e_full E); [cbn; rewrite CE0; exact PP|].
    assert (Ly : zlen y = n - zlen r0) by (apply (f_equal zlen) in Ey; rewrite zlen_app in Ey; lia).
    exists y. split; [rewrite app_assoc, <- Ey; exact Ep|]. split; [|reflexivity]. rewrite <- app_assoc.
    apply M_cur with (don := don) (cur := cur ++ y) (its1 := its1) (its2 := Begin :: map Fld (ks ++ out)); auto.
    eapply cf_headers with (qs := qs); [reflexivity|apply frame_head_app; eauto|auto|cbn [b_left]; rewrite zlen_app; lia|cbn [b_left]; unfold n in *; pose proof (zlen_nonneg _ r0); lia|cbn [b_sctx]; destruct DG as (_ & Di & _); congruence|exact SRy| |auto].
    rewrite app_nil_r in DD. exact DD.
  - cbn. rewrite CE0. exact PP.
  - destruct ADV.
Qed.
End Turn.

Lemma step_M H E fin s pre p evs : b_inv s -> bytes pre -> bytes p -> tab_ok H (d_ctx (b_dec s)) -> runnable b_ce s p -> M H s pre evs ->
  M_res H s pre p evs (bstep false fin E s p).
Proof.
  intros I Bpre Bp TO Run HM. unfold bstep. destruct (b_rd s) eqn:Rd.
  - destruct Run as [NE|X]; [|unfold b_ce in X; congruence].
    destruct (rd_varint (b_rv s) p fin) as [rv'|v rest| |] eqn:RV; [| |apply fail_M; auto|exact Logic.I];
      (destruct HM as [don cur its1 its2 E0 FS C Ev|R _]; [|congruence]); inversion C; subst; try congruence;
      pose proof (rd_varint_spec cur p fin H1 Bp NE) as (SP & PR); rewrite <- H3, RV in SP; rewrite app_nil_r in Ev.
    + destruct (get_varint (cur ++ p)) as [[v r]|] eqn:G; [discriminate|]. destruct fin; [discriminate|]. injection SP as ->.
      split; [|reflexivity]. rewrite <- app_assoc, app_nil_r. apply M_cur with (don := don) (cur := cur ++ p) (its1 := its1) (its2 := []); auto; [|rewrite app_nil_r; auto].
      apply cf_type; auto.
    + destruct (get_varint (cur ++ p)) as [[v' r]|] eqn:G; [|destruct fin; discriminate]. injection SP as <- <-.
      destruct (rd_varint_suf _ _ _ _ _ RV) as (y & ->). exists y. split; [reflexivity|]. split; [|reflexivity]. rewrite <- app_assoc, app_nil_r.
      apply M_cur with (don := don) (cur := cur ++ y) (its1 := its1) (its2 := []); auto; [|rewrite app_nil_r; auto].
      apply cf_len with (lb := []); auto using proper_nil. cbn [b_ty b_setrd].
      apply bytes_app in Bpre. destruct Bpre as (Bd & Bc). apply bytes_app in Bp. destruct Bp as (By & Br).
      assert (B3 : bytes (cur ++ y ++ rest)) by (apply bytes_app; split; [auto|apply bytes_app; auto]).
      rewrite get_varint_rfc in G by auto. destruct (rfc_varint_cut _ _ _ B3 G) as (b & h & Eh & Ch).
      assert (Ecy : cur ++ y = b :: h) by (apply (app_inv_tail rest); rewrite <- app_assoc, Eh; reflexivity).
      rewrite get_varint_rfc by (apply bytes_app; auto). rewrite Ecy. specialize (Ch []). rewrite app_nil_r in Ch. exact Ch.
  - destruct Run as [NE|X]; [|unfold b_ce in X; congruence].
    destruct (rd_varint (b_rv s) p fin) as [rv'|v rest| |] eqn:RV; [| |apply fail_M; auto|exact Logic.I].
    + destruct HM as [don cur its1 its2 E0 FS C Ev|R _]; [|congruence]. inversion C; subst; try congruence.
      pose proof (rd_varint_spec lb p fin H2 Bp NE) as (SP & PR). rewrite <- H4, RV in SP. rewrite app_nil_r in Ev.
      destruct (get_varint (lb ++ p)) as [[v r]|] eqn:G; [discriminate|]. destruct fin; [discriminate|]. injection SP as ->.
      split; [|reflexivity]. rewrite <- app_assoc, app_nil_r. apply M_cur with (don := don) (cur := cur ++ p) (its1 := its1) (its2 := []); auto; [|rewrite app_nil_r; auto].
      apply cf_len with (lb := lb ++ p); auto. cbn [b_ty b_setrd].
      apply bytes_app in Bpre. pose proof (get_varint_app cur p (proj2 Bpre)) as GA. rewrite H1 in GA. apply GA.
    + destruct (rd_varint_suf _ _ _ _ _ RV) as (y & Ey). eapply frame_start_M with (y := y) (lb := []); auto.
      * intros don cur its1 its2 E0 FS C Ev Bd Bc. inversion C; subst; try congruence. split; [reflexivity|]. split; [auto|].
        pose proof (rd_varint_spec lb (y ++ rest) fin H2 Bp NE) as (SP & PR). rewrite <- H4, RV in SP.
        destruct (get_varint (lb ++ y ++ rest)) as [[v' r]|] eqn:G; [|destruct fin; discriminate]. injection SP as <- <-.
        apply bytes_app in Bp. destruct Bp as (By & Br).
        pose proof (get_varint_app cur y Bc) as GA. rewrite H1 in GA. destruct GA as (GA & _).
        assert (Blb : bytes lb) by apply H2. assert (B3 : bytes (lb ++ y ++ rest)) by (apply bytes_app; split; [auto|apply bytes_app; auto]).
        rewrite get_varint_rfc in G by auto. destruct (rfc_varint_cut _ _ _ B3 G) as (b & h & Eh & Ch).
        assert (Ecy : lb ++ y = b :: h) by (apply (app_inv_tail rest); rewrite <- app_assoc, Eh; reflexivity).
        eapply frame_head_get; [apply bytes_app; auto|exact GA|]. rewrite get_varint_rfc by (apply bytes_app; auto). rewrite Ecy. specialize (Ch []). rewrite app_nil_r in Ch. exact Ch.
      * pose proof (rd_varint_ok (b_rv s) p (bi_rv _ I) Bp NE) as VO. unfold vres_ok in VO.
        destruct (rd_varint (b_rv s) p false) as [rv2|v2 r2| |] eqn:RV2; try contradiction.
        -- destruct fin; [destruct VO as (_ & _ & X & _)|]; congruence.
        -- destruct VO as (V1 & _ & _ & X & _). destruct fin; [rewrite X in RV; injection RV as <- <-; lia|congruence || (rewrite RV2 in RV; injection RV as <- <-; lia)].
  - apply data_M; auto.
  - apply headers_M; auto.
  - destruct HM as [don cur its1 its2 E0 FS C Ev|R _]; [|congruence]. inversion C; subst; try congruence. rename p0 into ps.
    cbv zeta. set (n := Z.min (b_left s) (zlen p)). pose proof (zlen_nonneg _ p) as Zp. assert (Hn : 0 <= n <= zlen p) by (unfold n; lia).
    apply bytes_app in Bpre. destruct Bpre as (Bd & Bc). rewrite app_nil_r in Ev.
    assert (Lf : zlen (firstn (Z.to_nat n) p) = n) by (unfold zlen in *; rewrite firstn_length; lia).
    destruct (Z.eqb_spec (b_left s - n) 0) as [Z0|Z0].
    + exists (firstn (Z.to_nat n) p). split; [symmetry; apply firstn_skipn|]. split; [|reflexivity]. rewrite <- app_assoc, app_nil_r.
      eapply M_next with (ty := ty) (len := len) (p := ps ++ firstn (Z.to_nat n) p) (it := []); auto.
      * apply bytes_app; split; [auto|]. rewrite <- (firstn_skipn (Z.to_nat n) p) in Bp. apply bytes_app in Bp. apply Bp.
      * exact FS.
      * apply frame_head_app; auto.
      * rewrite zlen_app. lia.
      * apply fm_other; auto.
      * rewrite app_nil_r. exact Ev.
    + split; [|reflexivity]. rewrite <- app_assoc, app_nil_r. apply M_cur with (don := don) (cur := cur ++ p) (its1 := its1) (its2 := []); auto; [|rewrite app_nil_r; auto].
      assert (n = zlen p) by (unfold n in *; lia).
      eapply cf_other; [reflexivity|apply frame_head_app; eauto|auto|auto|cbn [b_left b_setrd]; rewrite zlen_app; lia|cbn [b_left b_setrd]; unfold n; lia|auto].
  - split; [|reflexivity]. rewrite app_nil_r. destruct HM as [don cur its1 its2 E0 FS C Ev|R P]; [inversion C; congruence|]. apply M_rest; [reflexivity|]. apply partly_app. exact P.
Qed.

(* ---- a whole call ---- *)
Lemma step_inv pre E fin s p s' rest b ev : b_inv s -> bytes p -> runnable b_ce s p -> bstep pre fin E s p = SGo s' rest b ev ->
  b_inv s' /\ bytes rest /\ (b = true -> b_ce s').
Proof.
  intros I Bp R S. assert (S2 : bstep true false E s p = SGo s' rest b ev).
  { destruct (bstep_pre fin E s p) as [X|(e & ev0 & X & Y)].
    - assert (S3 : bstep true fin E s p = SGo s' rest b ev) by (destruct pre; congruence). destruct fin; [|exact S3].
      destruct (bstep_fin true E s p I Bp R) as [Z|(e & s2 & Z & _)]; [congruence|]. unfold b_fail in Z. congruence.
    - unfold b_fail in *. destruct pre; congruence. }
  pose proof (bstep_sok E s p I Bp R) as OK. unfold b_sok, step_ok in OK. rewrite S2 in OK. destruct OK as (A & B & _ & C & _). auto.
Qed.
Definition M_out (H : list field) (s : bst) (pre p : list Z) (evs : list bev) (r : rres bst bev) : Prop :=
  match r with
  | ROk s' ev => M H s' (pre ++ p) (evs ++ ev) /\ d_ctx (b_dec s') = d_ctx (b_dec s)
  | RStop s' rest ev => exists y, p = y ++ rest /\ M H s' (pre ++ y) (evs ++ ev) /\ d_ctx (b_dec s') = d_ctx (b_dec s)
  | RErr _ _ ev => partly H (pre ++ p) (content (evs ++ ev))
  | RAbort => True
  end.
Lemma run_M H E fin f : forall s pre p evs busy, b_inv s -> bytes pre -> bytes p -> tab_ok H (d_ctx (b_dec s)) -> (busy = true -> b_ce s) -> M H s pre evs ->
  M_out H s pre p evs (run_fuel (bstep false fin E) f s p busy).
Proof.
  induction f as [|f IH]; intros s pre p evs busy I Bpre Bp TO Hb HM.
  - destruct p, busy; cbn; auto. rewrite !app_nil_r. auto.
  - assert (T : runnable b_ce s p -> M_out H s pre p evs (turn (bstep false fin E) s p (run_fuel (bstep false fin E) f))).
    { intros R. unfold turn. pose proof (step_M H E fin s pre p evs I Bpre Bp TO R HM) as S.
      destruct (bstep false fin E s p) as [s' rest b ev|s' ev|s' rest ev|e s' ev|] eqn:Es; cbn [M_res M_out] in *; auto.
      destruct S as (y & Ey & HM' & Dc). destruct (step_inv _ _ _ _ _ _ _ _ _ I Bp R Es) as (I' & Br & Hb').
      assert (By : bytes y) by (rewrite Ey in Bp; apply bytes_app in Bp; apply Bp).
      specialize (IH s' (pre ++ y) rest (evs ++ ev) b I' ltac:(apply bytes_app; auto) Br ltac:(rewrite Dc; exact TO) Hb' HM').
      assert (Ep : pre ++ p = (pre ++ y) ++ rest) by (rewrite Ey, app_assoc; reflexivity).
      destruct (run_fuel (bstep false fin E) f s' rest b) as [s2 ev2|s2 r2 ev2|e2 s2 ev2|]; cbn [rev_ M_out] in *; rewrite ?(app_assoc evs ev ev2), ?Ep.
      - destruct IH as (X & Y). split; [exact X|congruence].
      - destruct IH as (y2 & E2 & X & Y). exists (y ++ y2). split; [rewrite Ey, E2, app_assoc; reflexivity|]. rewrite app_assoc. split; [exact X|congruence].
      - exact IH.
      - exact Logic.I. }
    destruct p, busy; cbn [run_fuel]; try (apply T; [left; discriminate || (right; auto)]); try (apply T; left; discriminate); try (apply T; right; auto).
    cbn. rewrite !app_nil_r. auto.
Qed.
Lemma M_ev H s pre evs ev : content ev = [] -> M H s pre evs -> M H s pre (evs ++ ev).
Proof.
  intros C HM. assert (X : content (evs ++ ev) = content evs) by (rewrite content_app, C, app_nil_r; reflexivity).
  destruct HM; [eapply M_cur; eauto; congruence|apply M_rest; auto; rewrite X; auto].
Qed.
Lemma curf_ph H s s' cur its : b_rd s' = b_rd s -> b_rv s' = b_rv s -> b_ty s' = b_ty s -> b_left s' = b_left s -> b_sctx s' = b_sctx s -> curf H s cur its -> curf H s' cur its.
Proof.
  intros A B C D E X. inversion X; subst.
  - apply cf_type; congruence.
  - eapply cf_len with (lb := lb); try congruence; auto.
  - eapply cf_data; eauto; congruence.
  - eapply cf_other; eauto; congruence.
  - eapply cf_headers; eauto; try congruence. intros Z; match goal with X : b_left s = 0 -> _ |- _ => apply X; congruence end.
Qed.
Lemma M_ph H s s' pre evs : b_rd s' = b_rd s -> b_rv s' = b_rv s -> b_ty s' = b_ty s -> b_left s' = b_left s -> b_sctx s' = b_sctx s -> M H s pre evs -> M H s' pre evs.
Proof. intros A B C D E [don cur i1 i2 X1 X2 X3 X4|R P]; [eapply M_cur; eauto using curf_ph|apply M_rest; congruence]. Qed.
Lemma read_M H E s pre p evs fin : b_inv s -> bytes pre -> bytes p -> tab_ok H (d_ctx (b_dec s)) -> M H s pre evs ->
  M_out H s pre p evs (b_read false E s p fin).
Proof.
  intros I Bpre Bp TO HM. unfold b_read, b_run, run. pose proof (run_M H E fin (S (measure 2 b_rank s p)) s pre p evs false I Bpre Bp TO ltac:(discriminate) HM) as R.
  destruct (run_fuel (bstep false fin E) (S (measure 2 b_rank s p)) s p false) as [s' ev|s' rest ev|e s' ev|]; auto. destruct fin; [|exact R].
  cbn [M_out] in R. destruct R as (R & Dc). assert (P : partly H (pre ++ p) (content (evs ++ ev))).
  { eapply M_partly; [apply TO|apply TO|apply bytes_app; auto|exact R]. }
  unfold b_finish. destruct (b_rd s') eqn:Rd; try exact P.
  - destruct (negb _); [exact P|]. destruct (transit _ _ _ HeMsgEnd) as [ph|e|]; [|exact P|exact Logic.I].
    split; [|exact Dc]. rewrite app_assoc. apply M_ev; [reflexivity|]. eapply M_ph; [..|exact R]; cbn; auto.
  - split; [exact R|exact Dc].
Qed.
Lemma curf_grow H X s cur its : Forall fbytes (H ++ X) -> curf H s cur its -> curf (H ++ X) s cur its.
Proof.
  intros F C. inversion C; subst; [apply cf_type|eapply cf_len|eapply cf_data|eapply cf_other|eapply cf_headers]; eauto using sec_rel_grow.
Qed.
Lemma numbered_grow dyn dyn' ric base l qs r : (forall i f, dyn i = Some f -> dyn' i = Some f) -> field_lines dyn ric base l qs r -> field_lines dyn' ric base l qs r.
Proof.
  intros G. assert (GE : forall i f, entry dyn ric i f -> entry dyn' ric i f) by (intros i f (A & B); split; auto).
  induction 1 as [|l q m qs r FL _ IH]; [constructor|]. econstructor; [|exact IH]. destruct FL as (b & t & -> & D). exists b, t. split; [reflexivity|].
  repeat match goal with |- if ?c then _ else _ => destruct c end; auto.
  - destruct D as (k & f & A & B & C). exists k, f. auto.
  - destruct D as (k & f & m0 & v & A & B & C & D). exists k, f, m0, v. split; [auto|]. split; [auto|]. split; [|auto]. destruct (Z.testbit b 4); auto.
  - destruct D as (k & f & A & B & C). exists k, f. auto.
  - destruct D as (k & f & m0 & v & A & B & C & D). exists k, f, m0, v. auto.
Qed.
End Stream.
