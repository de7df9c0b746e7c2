(* RFC 9204 at the interface of the decoder: histories of calls. *)
From Verif Require Import Base BaseLemmas QpackIntModel QpackIntSpec HuffModel HuffSpec Tables QpackTabModel QpackTabSpec
  QpackDynSpec QpackDynProofs Chunk QpackDecModel QpackReadProofs QpackDecProofs QpackSecProofs QpackWireProofs QpackHistModel QpackHistSpec QpackHistProofs
  QpackCutProofs QpackEvolveProofs RfcQpackSpec RfcPrim RfcEnc RfcSec.
Open Scope Z_scope.

Lemma field_line_app dyn ric base l q r x : field_line dyn ric base l q r -> field_line dyn ric base (l ++ x) q (r ++ x).
Proof.
  intros (b & t & -> & A). exists b, (t ++ x). split; [reflexivity|].
  assert (IA : forall N k m, an_int N (b :: t) k m -> an_int N (b :: t ++ x) k (m ++ x)) by (intros N k m Y; exact (an_int_app _ _ _ _ x Y)).
  assert (SA : forall N M m v z, a_string N M m v z -> a_string N M (m ++ x) v (z ++ x)) by (intros N M m v z Y; exact (a_string_app _ _ _ _ _ x Y)).
  destruct (192 <=? b); [|destruct (128 <=? b); [|destruct (64 <=? b); [|destruct (32 <=? b); [|destruct (16 <=? b)]]]].
  - destruct A as (k & f & A & F). exists k, f. auto.
  - destruct A as (k & f & A & F). exists k, f. auto.
  - destruct A as (k & f & m & v & A & V & F). exists k, f, (m ++ x), v. split; [auto|]. split; [apply SA; exact V|exact F].
  - destruct A as (n & m & v & A & V & F). exists n, (m ++ x), v. split; [exact (SA _ _ _ _ _ A)|]. split; [apply SA; exact V|exact F].
  - destruct A as (k & f & A & F). exists k, f. auto.
  - destruct A as (k & f & m & v & A & V & F). exists k, f, (m ++ x), v. split; [auto|]. split; [apply SA; exact V|exact F].
Qed.
Lemma field_lines_app dyn ric base l qs r x : field_lines dyn ric base l qs r -> field_lines dyn ric base (l ++ x) qs (r ++ x).
Proof. induction 1 as [|l q m qs r A F IH]; [constructor|]. exact (fl_cons _ _ _ _ _ _ _ _ (field_line_app _ _ _ _ _ _ x A) IH). Qed.
Lemma section_prefix_app max n l ric base r x : section_prefix max n l ric base r -> section_prefix max n (l ++ x) ric base (r ++ x).
Proof.
  intros (enc & b & t & de & H0 & A & Rq & D & Hb). exists enc, b, (t ++ x), de. split; [exact H0|]. split; [exact (an_int_app _ _ _ _ x A)|].
  split; [exact Rq|]. split; [exact (an_int_app _ _ _ _ x D)|exact Hb].
Qed.
Lemma section_prefix_fun c p ric base r ric' base' r' : ctx_ok c -> bytes p ->
  section_prefix (hard_max c) (next_absidx c) p ric base r -> section_prefix (hard_max c) (next_absidx c) p ric' base' r' ->
  ric = ric' /\ base = base' /\ r = r'.
Proof.
  intros CO B (enc & b & t & de & H0 & A & Rq & D & Hb & Eb) (enc' & b' & t' & de' & H0' & A' & Rq' & D' & Hb' & Eb').
  assert (Hh : 0 <= hard_max c) by (destruct CO as (W & _); pose proof (wf_cap _ W); lia).
  assert (Hn : 0 <= next_absidx c) by (destruct CO as (W & _); pose proof (tab_at_len _ _ _ (wf_tab _ W)); pose proof (zlen_nonneg _ (dtable c)); lia).
  destruct (an_int_fun _ _ _ _ _ _ A A') as (<- & E). injection E as <- <-. destruct (an_int_fun _ _ _ _ _ _ D D') as (<- & <-).
  assert (He : 0 <= enc).
  { assert (Hne : p <> []) by (intros ->; exact (an_int_nil _ _ _ A)). pose proof (int_cases 8 p ltac:(lia) B Hne) as Q.
    destruct (q_read_varint 8 0 0 p) as [[[[v sh] rest] [|]]|e|]; [| | |destruct Q].
    - destruct Q as (A2 & Hv & _). destruct (an_int_fun _ _ _ _ _ _ A A2) as (-> & _). exact Hv.
    - destruct (Q _ _ A).
    - specialize (Q [] enc (b :: t)). rewrite app_nil_r in Q. destruct (Q ltac:(constructor) A). }
  apply required_iff in Rq, Rq'; auto. assert (ric = ric') by congruence. subst ric'. split; [reflexivity|]. split; [|reflexivity]. congruence.
Qed.
Lemma field_section_fun max c t p ric qs ric' qs' : tmatch max c t -> bytes p ->
  field_section max t p ric qs -> field_section max t p ric' qs' -> ric = ric' /\ qs = qs'.
Proof.
  intros M B (base & m & P & L & F) (base' & m' & P' & L' & F'). pose proof (tm_ok _ _ _ M) as CO.
  rewrite <- (tm_next _ _ _ M), <- (tm_hard _ _ _ M) in P, P'. destruct (section_prefix_fun c p _ _ _ _ _ _ CO B P P') as (<- & <- & <-).
  split; [reflexivity|]. assert (Bm : bytes m).
  { destruct P as (enc & b & u & de & _ & A & _ & D & _). exact (an_int_bytes _ _ _ _ (an_int_bytes _ _ _ _ B A) D). }
  assert (N : forall q r, ~ field_line (absolute t) ric base [] q r) by (intros q r (b & u & E & _); discriminate).
  destruct (field_lines_max _ _ _ _ _ _ F N Bm _ F') as (E & _). auto.
Qed.

Theorem section_run max c t id p : tmatch max c t -> bytes p ->
  match rs_run c (sctx_init id) p with
  | ROk s' qs => s_state s' = RsOpcode /\ s_id s' = id /\ field_section max t p (s_ricnt s') qs \/
      s_state s' <> RsOpcode /\ forall ric qs', ~ field_section max t p ric qs'
  | RStop s' r qs => qs = [] /\ zlen (t_all t) < s_ricnt s' /\ exists base, section_prefix max (zlen (t_all t)) p (s_ricnt s') base r
  | RErr e s' qs => forall x ric qs', bytes x -> ~ field_section max t (p ++ x) ric qs'
  | RAbort => False
  end.
Proof.
  intros M B. pose proof (tm_ok _ _ _ M) as CO. pose proof (tmatch_smatch _ _ _ M) as SM.
  pose proof (prefix_cases c id p CO B) as PC. cbv zeta in PC. rewrite (tm_hard _ _ _ M), (tm_next _ _ _ M) in PC.
  pose proof (fun p ric base r ric' base' r' => section_prefix_fun c p ric base r ric' base' r' CO) as PF. rewrite (tm_hard _ _ _ M), (tm_next _ _ _ M) in PF.
  destruct PC as [(s' & R & S' & N)|[(e & s' & R & N)|(ric & base & r & SP & Br & s & S1 & S2 & S3 & X)]].
  - rewrite R. right. split; [exact S'|]. intros ric qs (base & m & P & _). exact (N _ _ _ P).
  - rewrite R. intros x ric qs Bx (base & m & P & _). exact (N x Bx _ _ _ P).
  - destruct (Z.leb_spec ric (zlen (t_all t))) as [L|L].
    + destruct X as (SS & R). rewrite R. pose proof (lines_run c _ SM r s SS ltac:(rewrite S2, (tm_next _ _ _ M); exact L) Br) as LR.
      rewrite S1, S2, S3 in LR. destruct (rs_run c s r) as [s' qs|s' rest qs|e s' qs|]; [|destruct LR| |destruct LR].
      * destruct LR as (l & F & [(-> & Y1 & Y2 & Y3)|(Hl & Y1 & Inc)]).
        -- left. split; [exact Y1|]. split; [exact Y2|]. rewrite Y3. exists base, r. auto.
        -- right. split; [exact Y1|]. intros ric' qs' (base' & m & P & _ & F').
           destruct (PF p _ _ _ _ _ _ B SP P) as (<- & <- & <-). destruct (field_lines_max _ _ _ _ _ _ F Inc Br _ F') as (_ & ->). congruence.
      * destruct LR as (l & F & Hl & NL). intros x ric' qs' Bx (base' & m & P & _ & F').
        assert (Bpx : bytes (p ++ x)) by (apply bytes_app; auto). assert (Brx : bytes (r ++ x)) by (apply bytes_app; auto).
        destruct (PF (p ++ x) _ _ _ _ _ _ Bpx (section_prefix_app _ _ _ _ _ _ x SP) P) as (<- & <- & <-).
        destruct (field_lines_max _ _ _ _ _ _ (field_lines_app _ _ _ _ _ _ x F) (fun q z => NL x q z Bx) Brx _ F') as (_ & E).
        apply app_eq_nil in E. destruct E. congruence.
    + destruct X as (_ & _ & R). rewrite R. split; [reflexivity|]. rewrite S2. split; [exact L|]. exists base. exact SP.
Qed.

(* ---- histories ---- *)
Lemma core_inv d : es_inv d -> es_inv (core d).
Proof. intros H. exact H. Qed.
Lemma hist_table hard blocked ops w tr : 0 <= hard -> Forall dop_ok ops -> drun (dw_init hard blocked) ops = Some (w, tr) -> error_free tr ->
  exists t l, instructions hard t_start (QpackHistSpec.received ops) t l /\ unfinished l /\ tmatch hard (d_ctx (w_dec w)) t.
Proof.
  intros Hh Ho R E. pose proof (winv_init hard blocked Hh) as W.
  destruct (drun_core ops _ _ _ W Ho eq_refl R E) as (_ & Bs & ev & X).
  pose proof (es_run_rfc hard (QpackHistSpec.received ops) (core (w_dec (dw_init hard blocked))) t_start (core_inv _ (wi_es _ W)) eq_refl (tmatch_init hard blocked Hh) Bs) as Y.
  rewrite X in Y. exact Y.
Qed.
Lemma received_app a b : QpackHistSpec.received (a ++ b) = QpackHistSpec.received a ++ QpackHistSpec.received b.
Proof. induction a as [|o a IH]; [reflexivity|]. destruct o; cbn [QpackHistSpec.received app]; rewrite IH, ?app_assoc; reflexivity. Qed.
(* an error on the encoder stream *)
Lemma hist_reject hard blocked ops w tr p w' e : 0 <= hard -> Forall dop_ok ops -> drun (dw_init hard blocked) ops = Some (w, tr) -> error_free tr ->
  bytes p -> dstep w (DEnc p) = Some (w', DrErr e) ->
  MAX_ENCODERLEN < d_unint (w_dec w) + zlen p \/
  exists t l, instructions hard t_start (QpackHistSpec.received ops ++ p) t l /\ no_instruction hard t l.
Proof.
  intros Hh Ho R E Bp S. pose proof (winv_init hard blocked Hh) as W.
  destruct (drun_core ops _ _ _ W Ho eq_refl R E) as (Nb & Bs & ev & X).
  destruct (drun_winv ops _ W Ho) as (w2 & tr2 & R2 & W2 & _). rewrite R in R2. injection R2 as <- <-.
  destruct (Z_le_gt_dec (d_unint (w_dec w) + zlen p) MAX_ENCODERLEN) as [L|L]; [right|left; lia].
  unfold dstep in S. rewrite (read_encoder_run _ _ (wi_es _ W2) Bp Nb L) in S.
  pose proof (es_run_rfc hard (QpackHistSpec.received ops ++ p) (core (w_dec (dw_init hard blocked))) t_start (core_inv _ (wi_es _ W)) eq_refl (tmatch_init hard blocked Hh)
    ltac:(apply bytes_app; auto)) as Y.
  rewrite (es_run_app _ _ _ (core_inv _ (wi_es _ W)) Bs Bp), X, es_run_core in Y.
  destruct (es_run (w_dec w) p) as [d' evs|d' rest evs|e' d' evs|]; try discriminate. exact Y.
Qed.
Lemma hist_section hard blocked ops w tr id p : 0 <= hard -> Forall dop_ok ops -> drun (dw_init hard blocked) ops = Some (w, tr) -> error_free tr ->
  bytes p -> exists t l, instructions hard t_start (QpackHistSpec.received ops) t l /\ unfinished l /\
  match decode_section (w_dec w) (sctx_init id) p true with
  | (qs, RqFinal d' s') => s_id s' = id /\ field_section hard t p (s_ricnt s') qs
  | (qs, RqBlocked s' r) => qs = [] /\ zlen (t_all t) < s_ricnt s' /\ exists base, section_prefix hard (zlen (t_all t)) p (s_ricnt s') base r
  | (qs, RqErr e d' s') => e = ERR_QPACK_FATAL /\ dbuf_overflow (w_dec w) = true \/ forall ric qs', ~ field_section hard t p ric qs'
  | _ => False
  end.
Proof.
  intros Hh Ho R E Bp. destruct (hist_table _ _ _ _ _ Hh Ho R E) as (t & l & I & U & M). exists t, l. split; [exact I|]. split; [exact U|].
  pose proof (winv_init hard blocked Hh) as W. destruct (drun_core ops _ _ _ W Ho eq_refl R E) as (Nb & _).
  rewrite (decode_section_run _ _ _ _ (tm_ok _ _ _ M) Nb (rs_inv_init id) Bp).
  pose proof (section_run hard _ t id p M Bp) as S. destruct (rs_run (d_ctx (w_dec w)) (sctx_init id) p) as [s' qs|s' rest qs|e s' qs|]; cbn [sec_result]; try exact S.
  - unfold rq_end, read_request_fin. destruct S as [(S1 & S2 & S3)|(S1 & S2)].
    + rewrite S1. destruct (s_ricnt s' =? 0); [auto|]. unfold write_section_ack. destruct (dbuf_overflow (w_dec w)) eqn:D; [left; auto|]. auto.
    + destruct (s_state s'); try congruence; right; exact S2.
  - right. intros ric qs'. specialize (S [] ric qs'). rewrite app_nil_r in S. apply S. constructor.
Qed.
(* the table a stream makes is determined by the stream *)
Lemma an_einstr_fun l i r i' r' : bytes l -> an_einstr l i r -> an_einstr l i' r' -> i = i' /\ r = r'.
Proof.
  intros B (b & t & -> & A) A'. assert (VB : forall m k, an_int 6 (b :: t) k m -> bytes m) by (intros m k Y; exact (an_int_bytes _ _ _ _ B Y)).
  destruct i as [n|k v|k v|n v|k].
  - destruct A as (Hb & A). destruct A' as (b' & t' & E & A'). injection E as <- <-. destruct i' as [n'|k' v'|k' v'|n' v'|k']; try lia.
    destruct A' as (_ & A'). destruct (an_int_fun _ _ _ _ _ _ A A') as (<- & <-). auto.
  - destruct A as (Hb & m & A & V). destruct (ei_index b t i' r' ltac:(lia) A') as (k' & v' & m' & -> & A2 & V2).
    destruct (an_int_fun _ _ _ _ _ _ A A2) as (<- & <-). destruct (a_string_fun _ _ _ _ _ _ _ (VB _ _ A) V V2) as (<- & <-).
    rewrite (proj2 (Z.leb_le 192 b)) by lia. auto.
  - destruct A as (Hb & m & A & V). destruct (ei_index b t i' r' ltac:(lia) A') as (k' & v' & m' & -> & A2 & V2).
    destruct (an_int_fun _ _ _ _ _ _ A A2) as (<- & <-). destruct (a_string_fun _ _ _ _ _ _ _ (VB _ _ A) V V2) as (<- & <-).
    rewrite (proj2 (Z.leb_gt 192 b)) by lia. auto.
  - destruct A as (Hb & m & A & V). destruct (ei_literal b t i' r' Hb A') as (n' & v' & m' & -> & A2 & V2).
    destruct (a_string_fun _ _ _ _ _ _ _ B A A2) as (<- & <-).
    assert (Bm : bytes m). { destruct A as (b0 & t0 & raw & E0 & A0 & _). apply (an_int_bytes _ _ _ _ B) in A0. apply bytes_app in A0. apply A0. }
    destruct (a_string_fun _ _ _ _ _ _ _ Bm V V2) as (<- & <-). auto.
  - destruct A as (Hb & A). destruct A' as (b' & t' & E & A'). injection E as <- <-. destruct i' as [n'|k' v'|k' v'|n' v'|k']; try lia.
    destruct A' as (_ & A'). destruct (an_int_fun _ _ _ _ _ _ A A') as (<- & <-). auto.
Qed.
Lemma an_einstr_bytes l i r : bytes l -> an_einstr l i r -> bytes r.
Proof.
  assert (VB : forall N M m v x, bytes m -> a_string N M m v x -> bytes x).
  { intros N M m v x Bm (b0 & t0 & raw & E0 & A0 & _). apply (an_int_bytes _ _ _ _ Bm) in A0. apply bytes_app in A0. apply A0. }
  intros B (b & t & -> & A). destruct i as [n|k v|k v|n v|k].
  - destruct A as (_ & A). exact (an_int_bytes _ _ _ _ B A).
  - destruct A as (_ & m & A & V). exact (VB _ _ _ _ _ (an_int_bytes _ _ _ _ B A) V).
  - destruct A as (_ & m & A & V). exact (VB _ _ _ _ _ (an_int_bytes _ _ _ _ B A) V).
  - destruct A as (_ & m & A & V). exact (VB _ _ _ _ _ (VB _ _ _ _ _ B A) V).
  - destruct A as (_ & A). exact (an_int_bytes _ _ _ _ B A).
Qed.
Lemma instructions_fun max t p t1 l1 t2 l2 : bytes p -> instructions max t p t1 l1 -> unfinished l1 ->
  instructions max t p t2 l2 -> unfinished l2 -> t1 = t2 /\ l1 = l2.
Proof.
  intros B I U. revert B t2 l2. induction I as [t l|t l i r t1 t' l' A C I IH]; intros B t2 l2 I2 U2.
  - inversion I2; subst; [auto|]. exfalso. eapply U. eassumption.
  - inversion I2 as [|? ? i2 r2 t3 ? ? A2 C2 I3]; subst; [exfalso; exact (U2 _ _ A)|].
    destruct (an_einstr_fun _ _ _ _ _ B A A2) as (<- & <-). rewrite C in C2. injection C2 as <-.
    exact (IH U (an_einstr_bytes _ _ _ B A) _ _ I3 U2).
Qed.
