(* The HTTP validation state along a message: lemmas for TraceProofs.v *)
From Coq Require Import String.
From Verif Require Import Base BaseLemmas ConvModel QpackTabModel QpackTabSpec QpackTabProofs HttpModel HttpSpec HttpHist HttpProofs HttpResProofs BidiModel TraceSpec.
Open Scope Z_scope.

(* trailers do not touch what the body and the end of the message depend on *)
Definition same_core (a b : http) : Prop :=
  h_clen a = h_clen b /\ h_recv a = h_recv b /\ h_final a = h_final b /\ h_connect a = h_connect b /\ h_code a = h_code b.
Lemma trailer_keep sf s f request ext s' r : good_field f -> on_header sf s f request true ext = (s', r) -> r <> HBad -> same_core s' s.
Proof.
  intros (T & Bn & Bv) E NB. unfold same_core.
  assert (RG : forall n v s', regular_step s n v = (s', r) -> h_clen s' = h_clen s /\ h_recv s' = h_recv s /\ h_final s' = h_final s /\ h_connect s' = h_connect s /\ h_code s' = h_code s).
  { unfold regular_step. intros n v s1 X. destruct (_ =? 0); [|destruct (_ =? -1); [|destruct (negb _)]]; injection X as <- _; cbn; auto. }
  destruct request; [rewrite on_header_req in E by auto; unfold kreq, pseudo_step in E|rewrite on_header_res in E by auto; unfold kres in E]; cbn [orb] in E;
    destruct (kind_of (q_name f)); try (injection E as <- <-; congruence); try (eapply RG; eassumption); try (injection E as <- <-; cbn; auto; fail).
  - destruct (negb _); [|destruct (_ || _)]; injection E as <- <-; cbn; auto.
  - unfold prio_step in E. destruct (negb _); [|cbn [orb] in E]; injection E as <- <-; cbn; auto.
Qed.
Lemma same_core_refl s : same_core s s. Proof. unfold same_core. auto. Qed.
Lemma same_core_trans a b c : same_core a b -> same_core b c -> same_core a c.
Proof. unfold same_core. intuition congruence. Qed.
Lemma trailers_keep sf request ext l : forall s s' out, Forall good_field l ->
  on_headers sf s l request true ext = (s', out, true) -> same_core s' s.
Proof.
  induction l as [|f l IH]; intros s s' out G; cbn [on_headers]; [intros [= <- _]; apply same_core_refl|].
  inversion G as [|? ? Gf G']; subst. destruct (on_header sf s f request true ext) as [s1 r] eqn:O. intros E.
  destruct r; [destruct (on_headers sf s1 l request true ext) as [[s2 o2] ok] eqn:E2; injection E as <- _ ->|..|discriminate];
    (eapply same_core_trans; [eapply IH; eauto|eapply trailer_keep; eauto; discriminate]).
Qed.

(* the state in the body of a message whose headers are [hs], after n bytes *)
Record in_body (r : role) (hs : fields) (n : Z) (h : http) : Prop := mk_ibody {
  ib_final : final r hs;
  ib_n : 0 <= n /\ h_recv h = n;
  ib_fin : h_final h = false;
  ib_clen : h_clen h = -1 \/ n <= h_clen h;
  ib_le : forall m, 0 <= m -> ((h_clen h = -1 \/ m <= h_clen h) <-> declared Z.le r hs m);
  ib_eq : forall m, 0 <= m -> ((h_clen h = -1 \/ m = h_clen h) <-> declared eq r hs m);
  ib_tunnel : match r with
              | Server _ _ => h_connect h = true <-> tunnel r hs
              | Client _ => h_connect h && (Z.quot (h_code h) 100 =? 2) = true <-> tunnel r hs
              end;
  ib_code : match r with Server _ _ => True | Client _ => h_code h <> -1 end }.
Lemma in_body_core r hs n h h' : same_core h' h -> in_body r hs n h -> in_body r hs n h'.
Proof. intros (A1 & A2 & A3 & A4 & A5) []. constructor; rewrite ?A1, ?A2, ?A3, ?A4, ?A5; auto. Qed.
Lemma in_body_chunk r hs n h m h' : in_body r hs n h -> 0 <= m -> on_data_chunk h m = (h', true) ->
  in_body r hs (n + m) h' /\ (m <> 0 -> forall k, 0 <= k <= n + m -> declared Z.le r hs k).
Proof.
  intros [A1 A2 A3 A4 A5 A6 A7 A8] M E. unfold on_data_chunk in E. injection E as <- E. cbn [h_final hs_recv h_clen h_recv] in E. rewrite A3 in E.
  assert (K : h_clen h = -1 \/ n + m <= h_clen h).
  { destruct A2. destruct (h_clen h =? -1) eqn:C; cbn in E; [left; lia|right]. apply negb_true_iff in E. lia. }
  split; [constructor; cbn; auto; lia|].
  intros _ k Hk. apply A5; [lia|]. destruct K; [auto|right; lia].
Qed.
Lemma in_body_end r hs n h : in_body r hs n h -> on_remote_end_stream h = true -> declared eq r hs n.
Proof.
  intros [A1 A2 A3 A4 A5 A6 A7 A8] E. unfold on_remote_end_stream in E. rewrite A3 in E. cbn in E. apply negb_true_iff in E.
  apply A6; [lia|]. destruct (h_clen h =? -1) eqn:C; cbn in E; [left; lia|right]. apply negb_false_iff in E. lia.
Qed.
Lemma body1 h m : 0 <= m -> h_final h = false -> h_recv h = 0 -> -1 <= h_clen h ->
  ((exists s', body h [m] = Some s') <-> h_clen h = -1 \/ m <= h_clen h) /\
  ((exists s', body h [m] = Some s' /\ on_remote_end_stream s' = true) <-> h_clen h = -1 \/ m = h_clen h).
Proof.
  intros M F R C. pose proof (body_end h [m]) as B. cbn [zsum fold_right] in B. rewrite Z.add_0_r in B. apply B; auto.
Qed.
Lemma clen_of_ge D : -1 <= clen_of D.
Proof. unfold clen_of. destruct (values n_clen D); [lia|]. destruct (parse_uint_spec l) as [[-> _]|(-> & _ & H)]; lia. Qed.
Lemma request_in_body sf' sf ext l s out : Forall good_field l -> accept_request sf ext l = Some (s, out) ->
  in_body (Server ext sf') (map fl out) 0 s.
Proof.
  intros G A. destruct (accept_request_sound _ _ _ _ _ G A) as (W & _ & F & R & C1 & C2).
  assert (CG : -1 <= h_clen s).
  { unfold accept_request in A. destruct (on_headers _ _ _ _ _ _) as [[s1 o1] [|]] eqn:O; [|discriminate].
    destruct (req_sound sf ext l http_init [] s1 o1 G rep_init (dwfp_nil ext) ltac:(constructor) O) as (RP & DW & _).
    destruct (req_finish s1 _ ext RP DW) as (_ & P1 & P2). destruct (on_request_headers s1) as [s2 [|]] eqn:OR; [|discriminate]. injection A as -> ->.
    cbn [fst snd] in *. cbn [app] in *. pose proof (clen_of_ge (map fl out)).
    destruct (negb (h_protocol s1) && h_connect s1) eqn:PC.
    - apply (conn_dec _ _ RP) in PC. rewrite C1 by auto. lia.
    - assert (NP : ~ plain_connect (map fl out)) by (intros X; apply (conn_dec _ _ RP) in X; congruence). rewrite C2 by auto. auto. }
  constructor; auto; try lia.
  - intros m M. destruct (body1 s m M F R CG) as [B1 _]. rewrite <- B1.
    pose proof (request_body sf ext l s out [m] G A ltac:(constructor; auto)) as [RB _]. cbn [zsum fold_right] in RB. rewrite Z.add_0_r in RB. exact RB.
  - intros m M. destruct (body1 s m M F R CG) as [_ B1]. rewrite <- B1.
    pose proof (request_body sf ext l s out [m] G A ltac:(constructor; auto)) as [_ RB]. cbn [zsum fold_right] in RB. rewrite Z.add_0_r in RB. exact RB.
  - cbn [tunnel]. unfold accept_request in A. destruct (on_headers _ _ _ _ _ _) as [[s1 o1] [|]] eqn:O; [|discriminate].
    destruct (req_sound sf ext l http_init [] s1 o1 G rep_init (dwfp_nil ext) ltac:(constructor) O) as (RP & DW & _).
    assert (K : h_connect (fst (on_request_headers s1)) = h_connect s1).
    { unfold on_request_headers. repeat match goal with |- context [if ?c then _ else _] => destruct c end; reflexivity. }
    destruct (on_request_headers s1) as [s2 [|]] eqn:OR; [|discriminate]. injection A as -> ->. cbn [fst] in K. rewrite K, (r_connect _ _ RP). cbn [app].
    change (bs "CONNECT") with MCONNECT. apply someb_eq.
Qed.
(* the priority fields of a request *)
Definition pri_inv (sf : sfparser) (D : fields) (s : http) : Prop :=
  (h_prio s = true -> h_badprio s = false) /\
  (h_badprio s = false -> merge_priorities sf (mk_pri 3 0) (values n_priority D) = Some (h_pri s) /\ (h_prio s = true -> values n_priority D <> [])).
Lemma merge_snoc sf vs v : forall p, merge_priorities sf p (vs ++ [v]) = match merge_priorities sf p vs with Some q => parse_priority sf q v | None => None end.
Proof. induction vs as [|w vs IH]; intros p; cbn; [destruct (parse_priority sf p v); reflexivity|]. destruct (parse_priority sf p w); auto. Qed.
Lemma pri_step sf ext s D n v s' r : pri_inv sf D s -> kreq sf s n v false ext = (s', r) -> r <> HBad ->
  pri_inv sf (if match r with HKeep => true | _ => false end then D ++ [(n, v)] else D) s'.
Proof.
  intros P E NB.
  assert (SAME : forall (b : bool), h_prio s' = h_prio s -> h_badprio s' = h_badprio s -> h_pri s' = h_pri s -> n <> n_priority -> pri_inv sf (if b then D ++ [(n, v)] else D) s').
  { intros b A1 A2 A3 N. unfold pri_inv. rewrite A1, A2, A3. destruct b; [|exact P]. rewrite values_snoc. destruct (beqb n n_priority) eqn:B; [apply beqb_spec in B; contradiction|]. rewrite app_nil_r. exact P. }
  assert (KP : kind_of n = KPriority \/ (h_prio s' = h_prio s /\ h_badprio s' = h_badprio s /\ h_pri s' = h_pri s /\ n <> n_priority)).
  { destruct (kind_of n) eqn:K; auto; right;
    (assert (NP : n <> n_priority) by (intros ->; vm_compute in K; discriminate));
    unfold kreq in E; rewrite K in E; unfold pseudo_step, regular_step in E; repeat match type of E with context [if ?c then _ else _] => destruct c end; injection E as <- <-; auto. }
  destruct KP as [K|(A1 & A2 & A3 & A4)].
  2:{ exact (SAME (match r with HKeep => true | _ => false end) A1 A2 A3 A4). }
  unfold kreq in E. rewrite K in E.
  assert (n = n_priority) by (apply kind_of_name; rewrite K; reflexivity). subst n. clear SAME. unfold prio_step in E. cbn [orb] in E.
  destruct P as [P1 P2]. destruct (negb (check_header_value v)).
  { injection E as <- <-. split; cbn; intros; discriminate. }
  cbn [h_badprio hs_nopseudo h_pri] in E. destruct (h_badprio s) eqn:BP.
  { injection E as <- <-. split; cbn; [intros X; specialize (P1 X); congruence|congruence]. }
  destruct (P2 eq_refl) as [P3 _]. destruct (parse_priority sf (h_pri s) v) as [p|] eqn:PP; injection E as <- <-; split; cbn [h_prio h_badprio h_pri hs_prio hs_nopseudo]; try (intros; discriminate); auto.
  intros _. rewrite values_snoc. replace (beqb n_priority n_priority) with true by (symmetry; apply beqb_spec; reflexivity). rewrite merge_snoc, P3. split; [exact PP|]. intros _ X. apply app_eq_nil in X as [_ X]. discriminate.
Qed.
Lemma pri_steps sf ext l : forall s D s' out, Forall good_field l -> pri_inv sf D s -> on_headers sf s l true false ext = (s', out, true) -> pri_inv sf (D ++ map fl out) s'.
Proof.
  induction l as [|f l IH]; intros s D s' out G P; cbn [on_headers]; [intros [= <- <-]; cbn; rewrite app_nil_r; auto|].
  inversion G as [|? ? (T & Bn & Bv) G']; subst. rewrite on_header_req by auto. destruct (kreq sf s (q_name f) (q_value f) false ext) as [s1 r] eqn:K. intros E.
  destruct r; [| |discriminate].
  - destruct (on_headers sf s1 l true false ext) as [[s2 o2] ok] eqn:E2. injection E as <- <- ->. cbn [map].
    change (fl f :: map fl o2) with ([fl f] ++ map fl o2). rewrite app_assoc. eapply IH; [exact G'| |exact E2]. exact (pri_step _ _ _ _ _ _ _ _ P K ltac:(discriminate)).
  - eapply IH; [exact G'| |exact E]. exact (pri_step _ _ _ _ _ _ _ _ P K ltac:(discriminate)).
Qed.
Lemma request_priority sf ext l s out : Forall good_field l -> accept_request sf ext l = Some (s, out) -> h_prio s = true ->
  header_priority sf (map fl out) = Some (h_pri s).
Proof.
  intros G A H. unfold accept_request in A. destruct (on_headers sf http_init l true false ext) as [[s1 o1] [|]] eqn:O; [|discriminate].
  assert (P0 : pri_inv sf [] http_init) by (split; [discriminate|]; intros _; split; [reflexivity|discriminate]).
  pose proof (pri_steps sf ext l http_init [] s1 o1 G P0 O) as [P1 P2]. cbn [app] in *.
  destruct (on_request_headers s1) as [s2 [|]] eqn:OR; [|discriminate]. injection A as -> ->.
  assert (X : h_prio s = h_prio s1 /\ h_pri s = h_pri s1).
  { unfold on_request_headers in OR. repeat match type of OR with context [if ?c then _ else _] => destruct c end; injection OR as <-; split; reflexivity. }
  destruct X as [X1 X2]. rewrite X1 in H. destruct (P2 (P1 H)) as [P3 P4]. specialize (P4 H). unfold header_priority. change (bs "priority") with n_priority. rewrite X2.
  destruct (values n_priority (map fl out)); [congruence|exact P3].
Qed.
Lemma response_in_body sf req s l s' out : awaiting sf req s -> Forall good_field l -> accept_response sf s l = Some (s', out) ->
  ~ informational (map fl out) -> in_body (Client req) (map fl out) 0 s'.
Proof.
  intros AW G A NI. pose proof (awaiting_fresh _ _ _ AW) as FR.
  destruct (accept_response_sound _ _ _ _ _ _ _ G FR A) as (W & _ & _ & B). destruct (B NI) as (F & R & BL). clear B.
  assert (CC : h_connect s' = is_connect req /\ h_code s' = code_of (map fl out) /\ present n_status (map fl out) /\ dwfr (is_connect req) (map fl out)).
  { pose proof (fresh_repr _ _ _ FR) as RP0. destruct FR as (_ & _ & _ & FN & _).
    unfold accept_response in A. destruct (on_headers _ _ _ _ _ _) as [[s1 o1] [|]] eqn:O; [|discriminate].
    destruct (res_sound sf false _ _ _ l s [] s1 o1 G RP0 (dwfr_nil _) ltac:(constructor) O) as (RP & DW & _). cbn [app] in *.
    assert (K : Z.quot (h_code s1) 100 <> 1 -> h_connect (fst (on_response_headers s1)) = h_connect s1 /\ h_code (fst (on_response_headers s1)) = h_code s1).
    { unfold on_response_headers. intros N. destruct (negb _); [split; reflexivity|]. destruct (Z.quot _ _ =? 1) eqn:Q; [lia|]. cbv zeta.
      destruct (negb _); [split; reflexivity|]. match goal with |- context [if ?c then _ else _] => destruct c end; split; reflexivity. }
    assert (N : snd (on_response_headers s1) = true -> h_status s1 = true).
    { unfold on_response_headers. destruct (h_status s1); [auto|discriminate]. }
    destruct (on_response_headers s1) as [s2 [|]] eqn:OR; [|discriminate]. injection A as -> ->. cbn [fst snd] in *.
    assert (PS : present n_status (map fl out)). { apply presentb_spec. rewrite <- (q_status _ _ _ _ _ RP). apply N; reflexivity. }
    destruct (code_status (map fl out)) as (v & V1 & V2 & V3); [destruct (is_connect req) eqn:IC; unfold is_connect in IC; rewrite IC in DW; auto|auto|].
    assert (NQ : Z.quot (h_code s1) 100 <> 1).
    { rewrite (q_code _ _ _ _ _ RP), V2. intros Q. apply NI. exists v. split; [auto|]. rewrite Z.quot_div_nonneg in Q by lia. exact Q. }
    destruct (K NQ) as [K1 K2]. rewrite K1, K2, (q_connect _ _ _ _ _ RP), (q_code _ _ _ _ _ RP). auto. }
  destruct CC as (C1 & C2 & C3 & C4).
  destruct (code_status (map fl out)) as (v & V1 & V2 & V3); [destruct (is_connect req); auto|auto|].
  assert (CG : -1 <= h_clen s').
  { destruct BL as (X1 & X2 & X3). unfold status_is in *.
    destruct (method_is (bs "HEAD") req); [rewrite X1 by auto; lia|].
    destruct (Z.eq_dec (num v) 304) as [E|E]; [rewrite X1 by (right; exists v; auto); lia|].
    destruct (Z.eq_dec (num v) 204) as [E2|E2]; [rewrite X1 by (right; exists v; auto); lia|].
    assert (NS : ~ (exists v0, values n_status (map fl out) = [v0] /\ (num v0 = 304 \/ num v0 = 204))).
    { intros (v0 & E0 & E1). rewrite V1 in E0. injection E0 as <-. tauto. }
    pose proof (clen_of_ge (map fl out)).
    destruct (method_is (bs "CONNECT") req); [rewrite X3 by auto; lia|rewrite X2 by auto; lia]. }
  constructor; auto; try lia.
  - cbn [final]. auto.
  - intros m M. destruct (body1 s' m M F R CG) as [B1 _]. rewrite <- B1.
    pose proof (response_body sf req s l s' out [m] AW G A NI ltac:(constructor; auto)) as [_ RB]. cbn [zsum fold_right] in RB. rewrite Z.add_0_r in RB. exact RB.
  - intros m M. destruct (body1 s' m M F R CG) as [_ B1]. rewrite <- B1.
    pose proof (response_body sf req s l s' out [m] AW G A NI ltac:(constructor; auto)) as [RB _]. cbn [zsum fold_right] in RB. rewrite Z.add_0_r in RB. exact RB.
  - cbn [tunnel]. rewrite C1, C2, V2. rewrite andb_true_iff, Z.eqb_eq, Z.quot_div_nonneg by lia. unfold status_is. split.
    + intros [Y1 Y2]. split; [auto|]. exists v. auto.
    + intros [Y1 (v0 & Y2 & Y3)]. rewrite V1 in Y2. injection Y2 as <-. auto.
Qed.
