(* More insertions do not change what has been read; the table that the encoder stream makes. *)
From Verif Require Import Base BaseLemmas ConvModel ConvSpec ConvProofs QpackIntModel QpackIntSpec HuffModel HuffSpec QpackTabModel QpackTabSpec QpackDynSpec QpackDynProofs Chunk QpackDecModel QpackReadProofs QpackDecProofs
  QpackSecProofs QpackHistModel QpackHistProofs QpackCutProofs QpackEvolveProofs HttpModel HttpSpec BidiModel BidiHist BidiSpec BidiProofs BidiRun BidiDec
  RfcQpackSpec RfcPrim RfcEnc RfcSec RfcMain RfcStreamSpec IdealSec SecMean MeanStream.
Open Scope Z_scope.

Lemma field_line_dyn dyn dyn' ric base l q r : (forall i f, 0 <= i < ric -> dyn i = Some f -> dyn' i = Some f) -> field_line dyn ric base l q r -> field_line dyn' ric base l q r.
Proof.
  intros G. assert (GE : forall i f, entry dyn ric i f -> entry dyn' ric i f) by (intros i f (A & B); split; auto).
  intros (b & t & -> & D). exists b, t. split; [reflexivity|].
  repeat match goal with |- if ?c then _ else _ => destruct c end; auto.
  - destruct D as (k & f & A & B & C). exists k, f. auto.
  - destruct D as (k & f & m0 & v & A & B & C & D). exists k, f, m0, v. split; [auto|]. split; [auto|]. split; [|auto]. destruct (Z.testbit b 4); auto.
  - destruct D as (k & f & A & B & C). exists k, f. auto.
  - destruct D as (k & f & m0 & v & A & B & C & D). exists k, f, m0, v. auto.
Qed.
Lemma numbered_back H X i f : i < zlen H -> numbered (H ++ X) i = Some f -> numbered H i = Some f.
Proof.
  intros L N. unfold numbered in *. destruct (Z.ltb_spec i 0); [discriminate|]. rewrite nth_error_app1 in N; [exact N|]. unfold zlen in L. lia.
Qed.

Section Grow.
Variables (max n0 : Z) (H X : list field).
Lemma grow_whole p qs : whole_section max H n0 p qs -> whole_section max (H ++ X) n0 p qs.
Proof.
  intros (n & ric & base & m & C & P & L & F). exists n, ric, base, m. split; [apply count_then_app; exact C|]. split; [exact P|].
  split; [rewrite zlen_app; pose proof (zlen_nonneg _ X); lia|]. apply (numbered_grow (numbered H)); [|exact F]. intros i f. apply numbered_app.
Qed.
Lemma grow_part p qs : part_section max H n0 p qs -> part_section max (H ++ X) n0 p qs.
Proof.
  pose proof (zlen_nonneg _ X) as Zx. destruct 1 as [n C N|n ric base m qs r C P L F N].
  - apply ps_prefix with n; [apply count_then_app; exact C|exact N].
  - eapply ps_lines; [apply count_then_app; exact C|exact P|rewrite zlen_app; intros Y; specialize (L Y); lia| |].
    + apply (numbered_grow (numbered H)); [|exact F]. intros i f. apply numbered_app.
    + intros q r' FL. destruct m as [|b m].
      { inversion F as [|? ? ? ? ? A]; subst; [destruct FL as (? & ? & E & _); discriminate|]. destruct A as (? & ? & E & _). discriminate. }
      apply (N q r'). apply (field_line_dyn (numbered (H ++ X))); [|exact FL]. intros i f Hi. apply numbered_back. specialize (L ltac:(discriminate)). lia.
Qed.
Lemma grow_frame_means ty p it : frame_means max H n0 ty p it -> frame_means max (H ++ X) n0 ty p it.
Proof. destruct 1; econstructor; eauto using grow_whole. Qed.
Lemma grow_frames l its r : frames max H n0 l its r -> frames max (H ++ X) n0 l its r.
Proof. induction 1; econstructor; eauto using grow_frame_means. Qed.
Lemma grow_part_frame l its : part_frame max H n0 l its -> part_frame max (H ++ X) n0 l its.
Proof. destruct 1; [apply pf_head|eapply pf_data|eapply pf_headers|eapply pf_other]; eauto using grow_part. Qed.
Lemma grow_means l its : means max H n0 l its -> means max (H ++ X) n0 l its.
Proof. intros (i1 & r & i2 & F & P & E). exists i1, r, i2. eauto using grow_frames, grow_part_frame. Qed.
Lemma grow_partly l its : partly max n0 H l its -> partly max n0 (H ++ X) l its.
Proof. intros (a & b & E & P). exists a, b. eauto using grow_means. Qed.
Lemma grow_M id s pre evs : Forall fbytes (H ++ X) -> M max n0 id H s pre evs -> M max n0 id (H ++ X) s pre evs.
Proof. intros F [don cur i1 i2 E FS C Ev|R P]; [eapply M_cur; eauto using grow_frames, curf_grow|apply M_rest; auto using grow_partly]. Qed.
End Grow.

(* ---- the table ---- *)
Lemma a_string_bytes N max l s r : 1 <= N <= 7 -> bytes l -> a_string N max l s r -> bytes s /\ bytes r.
Proof.
  intros HN B A. destruct l as [|b t]; [destruct (a_string_nil _ _ _ _ A)|].
  pose proof (string_cases N max b t huff_init HN B) as C. cbv zeta in C.
  assert (K : forall s' r', ~ (forall x s r, bytes x -> ~ a_string N max ((b :: t) ++ x) s r) \/ (s', r') = (s, r)).
  { intros s' r'. left. intros Y. apply (Y [] s r ltac:(constructor)). rewrite app_nil_r. exact A. }
  assert (K0 : ~ forall x s r, bytes x -> ~ a_string N max ((b :: t) ++ x) s r) by (destruct (K s r) as [Y|_]; [exact Y|intros Y; apply (Y [] s r ltac:(constructor)); rewrite app_nil_r; exact A]). clear K.
  destruct (q_read_varint N 0 0 (b :: t)) as [[[[n sh] rest] [|]]|e|]; [|destruct (C _ _ A)|destruct (K0 C)|destruct C].
  destruct C as (Br & Hn & _ & C). destruct (n >? max); [destruct (K0 C)|].
  destruct (read_str _ _ _ _ _ _) as [[[[lft fs] s'] r']|e|]; [|destruct (K0 C)|destruct C].
  destruct (lft =? 0); [|destruct (C _ _ A)]. destruct C as (A' & Bs & Br'). destruct (a_string_fun _ _ _ _ _ _ _ B A A') as (-> & ->). auto.
Qed.
Definition sound (t : table) : Prop := Forall fbytes (t_all t) /\ Forall fbytes (t_live t).
Lemma evict_forall (P : field -> Prop) l : forall cap, Forall P l -> Forall P (rfc_evict l cap).
Proof. intros cap F. destruct (rfc_evict_prefix l cap) as (x & E). rewrite E in F. apply Forall_app in F. apply F. Qed.
Lemma insert_sound t f t' : sound t -> fbytes f -> t_insert t f = Some t' -> sound t' /\ t_all t' = t_all t ++ [f].
Proof.
  intros (A & L) F. unfold t_insert, rfc_insert. destruct (_ <=? _); [|discriminate]. intros E. injection E as <-. cbn [t_all]. split; [|reflexivity].
  split; cbn [t_all t_live]; [apply Forall_app; auto|]. constructor; [exact F|]. apply evict_forall. exact L.
Qed.
Lemma relative_sound t i f : sound t -> relative t i = Some f -> fbytes f.
Proof. intros (_ & L) R. unfold relative in R. destruct (i <? 0); [discriminate|]. apply nth_error_In in R. exact (proj1 (Forall_forall _ _) L _ R). Qed.
Lemma an_int_nonneg N l v r : 1 <= N <= 8 -> bytes l -> an_int N l v r -> 0 <= v.
Proof.
  intros HN B A. assert (Hne : l <> []) by (intros ->; exact (an_int_nil _ _ _ A)). pose proof (int_cases N l HN B Hne) as Q.
  destruct (q_read_varint N 0 0 l) as [[[[v2 sh] rest] [|]]|e|]; [| | |destruct Q].
  - destruct Q as (A2 & Hv & _). destruct (an_int_fun _ _ _ _ _ _ A A2) as (-> & _). exact Hv.
  - destruct (Q _ _ A).
  - specialize (Q [] v r). rewrite app_nil_r in Q. destruct (Q ltac:(constructor) A).
Qed.
Lemma carry_sound max t l i r t1 : sound t -> bytes l -> an_einstr l i r -> carry_out max t i = Some t1 -> sound t1 /\ exists x, t_all t1 = t_all t ++ x.
Proof.
  intros S B (b & u & -> & A) C. destruct i as [n|k v|k v|n v|k]; cbn [carry_out] in C.
  - destruct (n <=? max); [|discriminate]. injection C as <-. split; [|exists []; cbn; rewrite app_nil_r; reflexivity]. split; [apply S|]. apply evict_forall. apply S.
  - destruct A as (_ & m & A & V). pose proof (an_int_bytes _ _ _ _ B A) as Bm. destruct (a_string_bytes 7 _ _ _ _ ltac:(lia) Bm V) as (Bv & _).
    pose proof (static_get k (an_int_nonneg 6 _ _ _ ltac:(lia) B A)) as G. destruct (static k) as [f|]; [|discriminate].
    destruct (stable_get k) as [[[n w] tk]|]; [|discriminate]. destruct G as (E & _ & Bn & _). injection E as ->.
    destruct (insert_sound _ _ _ S (conj Bn Bv : fbytes (_, _)) C) as (S' & E'). split; [exact S'|]. eexists. exact E'.
  - destruct A as (_ & m & A & V). pose proof (an_int_bytes _ _ _ _ B A) as Bm. destruct (a_string_bytes 7 _ _ _ _ ltac:(lia) Bm V) as (Bv & _).
    destruct (relative t k) as [f|] eqn:R; [|discriminate]. pose proof (relative_sound _ _ _ S R) as (Bn & _).
    destruct (insert_sound _ _ _ S (conj Bn Bv : fbytes (_, _)) C) as (S' & E'). split; [exact S'|]. eexists. exact E'.
  - destruct A as (_ & m & A & V). destruct (a_string_bytes 5 _ _ _ _ ltac:(lia) B A) as (Bn & Bm). destruct (a_string_bytes 7 _ _ _ _ ltac:(lia) Bm V) as (Bv & _).
    destruct (insert_sound _ _ _ S (conj Bn Bv : fbytes (_, _)) C) as (S' & E'). split; [exact S'|]. eexists. exact E'.
  - destruct (relative t k) as [f|] eqn:R; [|discriminate]. destruct (insert_sound _ _ _ S (relative_sound _ _ _ S R) C) as (S' & E'). split; [exact S'|]. eexists. exact E'.
Qed.
Lemma instructions_sound max t p t' l : instructions max t p t' l -> sound t -> bytes p -> sound t' /\ exists x, t_all t' = t_all t ++ x.
Proof.
  induction 1 as [t l|t l i r t1 t' l' A C I IH]; intros S B; [split; [exact S|exists []; rewrite app_nil_r; reflexivity]|].
  destruct (carry_sound _ _ _ _ _ _ S B A C) as (S1 & x & E). destruct (IH S1 (an_einstr_bytes _ _ _ B A)) as (S2 & y & E2).
  split; [exact S2|]. exists (x ++ y). rewrite E2, E, app_assoc. reflexivity.
Qed.
Lemma sound_start : sound t_start. Proof. split; constructor. Qed.

(* ---- decoders ---- *)
Record seen_by (max : Z) (d : dec) : Prop := {
  sb_es : es_inv d;
  sb_bytes : bytes (d_seen d);
  sb_bad : bad (d_ctx d) = false;
  sb_run : exists blk ev, es_run (core (dec_init max blk)) (d_seen d) = ROk (core d) ev }.
Lemma seen_init max blk : 0 <= max -> seen_by max (dec_init max blk).
Proof. intros H. constructor; [apply es_inv_init; exact H|constructor|reflexivity|]. exists blk, []. reflexivity. Qed.
Lemma seen_same max d d' : core d' = core d -> d_seen d' = d_seen d -> es_inv d' -> seen_by max d -> seen_by max d'.
Proof.
  intros C S I [_ B N R]. constructor; [exact I|rewrite S; exact B| |rewrite S, C; exact R].
  change (d_ctx d') with (d_ctx (core d')). rewrite C. exact N.
Qed.
Lemma read_encoder_seen max d src d' n : seen_by max d -> bytes src -> read_encoder d src = (d', Ok n) -> seen_by max d' /\ d_seen d' = d_seen d ++ src.
Proof.
  intros [I B N (blk & ev & R)] Bs E. pose proof (read_encoder_ok d src I Bs) as K. rewrite E in K. destruct K as (I' & _). unfold read_encoder in E. rewrite N in E.
  destruct src as [|b src].
  { injection E as <- <-. rewrite app_nil_r. split; [constructor; eauto|reflexivity]. }
  cbv zeta in E. destruct (_ >? _); [discriminate|]. pose proof (es_run_bad (d_got d (b :: src)) (b :: src)) as Bd.
  assert (RE : read_encoder d (b :: src) = (d', Ok n) -> True) by auto.
  destruct (es_run (d_got d (b :: src)) (b :: src)) as [d1 ev1|d1 r1 ev1|e d1 ev1|] eqn:Er; try discriminate. injection E as <- <-.
  cbn [d_got d_ctx] in Bd. rewrite N in Bd.
  change (d_got d (b :: src)) with (d_count d (d_unint d + zlen (b :: src)) (d_seen d ++ b :: src)) in Er. rewrite es_run_unint in Er.
  destruct (es_run d (b :: src)) as [d2 ev2|d2 r2 ev2|e d2 ev2|] eqn:Er2; try discriminate. injection Er as <- <-. cbn [d_seen d_count].
  split; [|reflexivity]. constructor; [exact I'|cbn [d_seen d_count]; apply bytes_app; auto|exact Bd|]. exists blk. cbn [d_seen d_count].
  rewrite es_run_app; [|apply core_inv; apply es_inv_init|auto|auto].
  - rewrite R, es_run_core, Er2. eexists. reflexivity.
  - (* 0 <= max *) pose proof (es_run_old (core (dec_init max blk)) (d_seen d)) as O. rewrite R in O. destruct O as (O & _).
    destruct I as (W & _). destruct W as (W & _). pose proof (wf_cap _ W) as Q. cbn in O. rewrite O in Q. lia.
Qed.

Lemma evolves_seen max d d' : dec_evolves d d' -> seen_by max d -> seen_by max d' /\ exists x, bytes x /\ d_seen d' = d_seen d ++ x.
Proof.
  induction 1 as [d|d d1 src n d' B H _ IH|d d1 s d' B H _ IH|d d1 id d' H _ IH|d d1 n l d' H _ IH|d n d' _ IH]; intros S.
  - split; [exact S|]. exists []. split; [constructor|rewrite app_nil_r; reflexivity].
  - destruct (read_encoder_seen _ _ _ _ _ S B H) as (S1 & E1). destruct (IH S1) as (S2 & x & Bx & E2). split; [exact S2|].
    exists (src ++ x). split; [apply bytes_app; auto|]. rewrite E2, E1, app_assoc. reflexivity.
  - destruct (fin_cases d s d1 H B) as (F1 & F2 & F3 & F4 & F5 & F6).
    assert (E : d_seen d1 = d_seen d).
    { unfold read_request_fin in H. destruct (s_state s); try discriminate. destruct (s_ricnt s =? 0); [injection H as <-; reflexivity|].
      unfold write_section_ack in H. destruct (dbuf_overflow d); [discriminate|]. injection H as <-. reflexivity. }
    rewrite <- E. apply IH. apply (seen_same _ d); auto; [unfold core; congruence|]. pose proof (sb_es _ _ S) as Hi. unfold es_inv, op_val in *. rewrite F1, F2, F3, F4. exact Hi.
  - unfold dec_cancel_stream in H. destruct (_ || _); [discriminate|]. destruct (dbuf_overflow d); [discriminate|].
    injection H as <-. destruct (IH ltac:(apply (seen_same _ d); [reflexivity|reflexivity|exact (sb_es _ _ S)|exact S])) as (A & x & C). split; [exact A|]. exists x. exact C.
  - unfold write_decoder in H. destruct (_ <? _); [discriminate|].
    destruct (_ <? _); injection H as <- _; (destruct (IH ltac:(apply (seen_same _ d); [reflexivity|reflexivity|exact (sb_es _ _ S)|exact S])) as (A & x & C); split; [exact A|]; exists x; exact C).
  - destruct (IH ltac:(apply (seen_same _ d); [reflexivity|reflexivity|exact (sb_es _ _ S)|exact S])) as (A & x & C). split; [exact A|]. exists x. exact C.
Qed.
(* the insertions made by a stream are determined by it and grow with it *)
Lemma insertions_fun max es H H' : bytes es -> insertions max es H -> insertions max es H' -> H = H'.
Proof. intros B (t & l & I & U & <-) (t' & l' & I' & U' & <-). destruct (instructions_fun _ _ _ _ _ _ _ B I U I' U') as (-> & _). reflexivity. Qed.
Lemma an_einstr_app l i r x : an_einstr l i r -> an_einstr (l ++ x) i (r ++ x).
Proof.
  intros (b & t & -> & A). exists b, (t ++ x). split; [reflexivity|]. change (b :: t ++ x) with ((b :: t) ++ x). destruct i.
  - destruct A as (Y & A). auto using an_int_app.
  - destruct A as (Y & m & A & V). split; [exact Y|]. exists (m ++ x). split; [apply an_int_app; exact A|apply a_string_app; exact V].
  - destruct A as (Y & m & A & V). split; [exact Y|]. exists (m ++ x). split; [apply an_int_app; exact A|apply a_string_app; exact V].
  - destruct A as (Y & m & A & V). split; [exact Y|]. exists (m ++ x). split; apply a_string_app; assumption.
  - destruct A as (Y & A). auto using an_int_app.
Qed.
Lemma instructions_app max t p t' l x : instructions max t p t' l -> instructions max t (p ++ x) t' (l ++ x).
Proof. induction 1; [constructor|]. econstructor; eauto using an_einstr_app. Qed.
Lemma instructions_split max t p t1 l1 : instructions max t p t1 l1 -> bytes p -> forall t2 l2, instructions max t p t2 l2 -> unfinished l2 -> instructions max t1 l1 t2 l2.
Proof.
  induction 1 as [t l|t l i r t1 t' l' A C I IH]; intros B t2 l2 I2 U2; [exact I2|].
  inversion I2 as [|? ? i2 r2 t3 ? ? A2 C2 I3]; subst; [destruct (U2 _ _ A)|].
  destruct (an_einstr_fun _ _ _ _ _ B A A2) as (<- & <-). rewrite C in C2. injection C2 as <-. exact (IH (an_einstr_bytes _ _ _ B A) _ _ I3 U2).
Qed.
Lemma insertions_grow max es x H H' : bytes (es ++ x) -> insertions max es H -> insertions max (es ++ x) H' -> exists X, H' = H ++ X.
Proof.
  intros B (t & l & I & U & <-) (t' & l' & I' & U' & <-). apply bytes_app in B as B2. destruct B2 as (Be & Bx).
  pose proof (instructions_split _ _ _ _ _ (instructions_app _ _ _ _ _ x I) B _ _ I' U') as J.
  destruct (instructions_sound _ _ _ _ _ I sound_start Be) as (S & _). 
  assert (Bl : bytes (l ++ x)).
  { apply bytes_app. split; [|exact Bx]. clear - I Be. induction I; auto. apply IHI. eapply an_einstr_bytes; eauto. }
  destruct (instructions_sound _ _ _ _ _ J S Bl) as (_ & X). exact X.
Qed.
(* a decoder's table is the one its encoder stream makes *)
Theorem seen_table max d : 0 <= max -> seen_by max d -> exists H, insertions max (d_seen d) H /\ Forall fbytes H /\ below (d_ctx d) H /\ next_absidx (d_ctx d) = zlen H /\ hard_max (d_ctx d) = max.
Proof.
  intros Hm [I B N (blk & ev & R)].
  pose proof (es_run_rfc max (d_seen d) (core (dec_init max blk)) t_start (core_inv _ (es_inv_init max blk Hm)) eq_refl (tmatch_init max blk Hm) B) as Y.
  rewrite R in Y. destruct Y as (t & l & In & U & TM). exists (t_all t). split; [exists t, l; auto|].
  split; [apply (instructions_sound _ _ _ _ _ In sound_start B)|]. split; [exact (tmatch_below _ _ _ TM)|]. split; [exact (tm_next _ _ _ TM)|exact (tm_hard _ _ _ TM)].
Qed.
