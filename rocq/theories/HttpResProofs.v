(* Response sections, trailers, content-length (HttpModel.v against HttpSpec.v) *)
From Coq Require Import String.
From Verif Require Import Base BaseLemmas Tables QpackTabModel QpackTabSpec QpackTabProofs ConvProofs HttpModel HttpSpec HttpHist HttpProofs.

Lemma forb_snoc connect D n v : clen_forbidden connect D -> clen_forbidden connect (D ++ [(n, v)]).
Proof. intros (w & I & H). exists w. split; [|exact H]. rewrite values_app. apply in_or_app; auto. Qed.
Lemma forb_app connect D l : clen_forbidden connect D -> clen_forbidden connect (D ++ l).
Proof. intros (w & I & H). exists w. split; [|exact H]. rewrite values_app. apply in_or_app; auto. Qed.
Lemma name_ok_te : name_ok n_te.
Proof. split; [discriminate|]. apply check_name_spec; [|reflexivity]. repeat constructor; unfold is_byte; lia. Qed.
Lemma name_ok_clen : name_ok n_clen.
Proof. split; [discriminate|]. apply check_name_spec; [|reflexivity]. repeat constructor; unfold is_byte; lia. Qed.
Lemma fokr_named n v : fokr n v -> In n known_res \/ name_ok n.
Proof.
  unfold fokr. destruct (kind_of n) eqn:K; try contradiction; try tauto; kname K; intros _.
  - left; left; reflexivity.
  - right. apply name_ok_clen.
  - right. apply name_ok_te.
Qed.
Lemma status_not_name : ~ name_ok n_status.
Proof. apply colon_not_tchar. Qed.
Lemma dwfr_snoc connect s D n v : dwfr connect D -> (h_nopseudo s = false -> Forall (fun f => In (fst f) known_res) D) ->
  accr connect s D n v -> dwfr connect (D ++ [(n, v)]).
Proof.
  intros [[OK O1 O2] CF] NP (F & A1 & A2 & A3). split.
  - constructor.
    + intros m w I. apply in_app_or in I as [I|[I|[]]]; [eauto|]. injection I as <- <-. exact F.
    + destruct (fokr_named _ _ F) as [K|K].
      * exists (D ++ [(n, v)]), []. rewrite app_nil_r. split; [reflexivity|]. split; [|constructor].
        apply Forall_app. split; [apply NP; auto|]. constructor; auto.
      * destruct O1 as (P & R & -> & FP & FR). exists P, (R ++ [(n, v)]). rewrite app_assoc. split; [reflexivity|]. split; [exact FP|].
        apply Forall_app. split; [exact FR|]. constructor; auto.
    + intros m I. apply at_most_snoc. split; [apply O2; auto|]. intros <-. auto.
  - intros FB. destruct (beqb n n_status) eqn:ES.
    + apply beqb_spec in ES. subst n. assert (AD : Forall (fun f => In (fst f) known_res) D) by (apply NP, A2; left; reflexivity).
      apply absent_spec. intros w I. apply in_app_or in I as [I|[I|[]]]; [|discriminate I].
      rewrite Forall_forall in AD. destruct (AD _ I) as [X|[]]. discriminate X.
    + assert (FB' : clen_forbidden connect D).
      { destruct FB as (w & I & H). exists w. split; [|exact H]. rewrite values_snoc, ES, app_nil_r in I. exact I. }
      unfold absent. rewrite values_snoc. rewrite (CF FB'). destruct (beqb n n_clen) eqn:EC; [|reflexivity].
      apply beqb_spec in EC. destruct (A3 EC FB').
Qed.
Lemma dwfr_nil connect : dwfr connect [].
Proof.
  split; [|intros (v & [] & _)]. constructor; [intros ? ? []| |intros n _; unfold at_most_once; cbn; lia].
  exists [], []. auto.
Qed.
Lemma dwfr_prefix connect D l : dwfr connect (D ++ l) -> dwfr connect D.
Proof.
  intros [[OK (P & R & E & FP & FR) O2] CF]. split.
  - constructor.
    + intros n v I. apply OK. apply in_or_app; auto.
    + apply app_eq_app in E as (m & [[-> ->]|[-> ->]]).
      * exists P, m. apply Forall_app in FR as [FR _]. auto.
      * exists D, []. rewrite app_nil_r. apply Forall_app in FP as [FP _]. auto.
    + intros n I. specialize (O2 n I). unfold at_most_once in *. rewrite values_app, app_length in O2. lia.
  - intros F. apply (forb_app _ _ l) in F. apply CF in F. unfold absent in *. rewrite values_app in F. apply app_eq_nil in F. tauto.
Qed.
Lemma res_sound sf ext connect head recv l : forall s D s' out, Forall good_field l -> repr connect head recv s D -> dwfr connect D ->
  (h_nopseudo s = false -> Forall (fun f => In (fst f) known_res) D) ->
  on_headers sf s l false false ext = (s', out, true) ->
  repr connect head recv s' (D ++ map fl out) /\ dwfr connect (D ++ map fl out) /\
  drops (fun f => bad_res connect (D ++ map fl out) (fl f)) l out.
Proof.
  induction l as [|f l IH]; intros s D s' out G R W NP E; cbn [on_headers] in E.
  - injection E as <- <-. cbn [map]. rewrite app_nil_r. split; [exact R|]. split; [exact W|constructor].
  - inversion G as [|? ? (T & Bn & Bv) G']; subst. rewrite on_header_res in E by auto.
    destruct (kres s (q_name f) (q_value f) false) as [s1 r] eqn:K.
    pose proof (res_step _ _ _ _ _ _ _ _ _ Bn Bv R W NP K) as ST.
    destruct r; cbn [step_spec] in ST; [| |discriminate].
    + destruct ST as (A & R1 & N1). destruct (on_headers sf s1 l false false ext) as [[s2 o2] ok] eqn:E2.
      injection E as <- <- ->. cbn [map].
      change (fl f :: map fl o2) with ([fl f] ++ map fl o2). rewrite app_assoc.
      destruct (IH s1 (D ++ [fl f]) s2 o2 G' R1) as (R2 & W2 & D2); auto.
      * eapply dwfr_snoc; eauto.
      * intros N. rewrite N1 in N. apply orb_false_iff in N as [N KN]. apply negb_false_iff, inb_spec in KN.
        apply Forall_app. split; [auto|]. constructor; auto.
      * split; [exact R2|]. split; [exact W2|]. constructor; auto.
    + destruct ST as (A & R1 & N1 & BF).
      destruct (IH s1 D s' out G' R1 W) as (R2 & W2 & D2); auto.
      * intros N. apply NP. destruct (h_nopseudo s); auto. rewrite N1 in N; auto.
      * split; [exact R2|]. split; [exact W2|]. apply drops_drop; auto.
        destruct BF as [BF|[BF1 BF2]]; [left; exact BF|right; split; [exact BF1|apply forb_app; exact BF2]].
Qed.
Lemma res_complete sf ext connect head recv l : forall s D, Forall good_field l -> repr connect head recv s D ->
  h_nopseudo s = negb (forallb (fun f => inb (fst f) known_res) D) -> dwfr connect (D ++ map fl l) ->
  exists s', on_headers sf s l false false ext = (s', l, true) /\ repr connect head recv s' (D ++ map fl l).
Proof.
  induction l as [|f l IH]; intros s D G R NP W; cbn [on_headers map].
  - exists s. rewrite app_nil_r in *. auto.
  - inversion G as [|? ? (T & Bn & Bv) G']; subst. rewrite on_header_res by auto.
    cbn [map] in W. change (fl f :: map fl l) with ([fl f] ++ map fl l) in *. rewrite app_assoc in *.
    pose proof (dwfr_prefix _ _ _ W) as W1. pose proof (dwfr_prefix _ _ _ W1) as W0.
    assert (NP' : h_nopseudo s = false -> Forall (fun f => In (fst f) known_res) D).
    { intros N. rewrite N in NP. symmetry in NP. apply negb_false_iff in NP. rewrite forallb_forall in NP.
      apply Forall_forall. intros x I. apply inb_spec. apply NP. exact I. }
    destruct (kres s (q_name f) (q_value f) false) as [s1 r] eqn:K.
    pose proof (res_step _ _ _ _ _ _ _ _ _ Bn Bv R W0 NP' K) as ST.
    assert (A : accr connect s D (q_name f) (q_value f)).
    { destruct W1 as [[OK O1 O2] CF]. split; [|split; [|split]].
      - apply OK. apply in_or_app. right; left; reflexivity.
      - intros I. specialize (O2 _ I). apply at_most_snoc in O2. apply O2. reflexivity.
      - intros I. rewrite NP. apply negb_false_iff. apply forallb_forall. intros x J. apply inb_spec.
        destruct O1 as (P & Rr & E & FP & FR). destruct Rr as [|y Rr] using rev_ind.
        + rewrite app_nil_r in E. subst P. rewrite Forall_forall in FP. apply FP. apply in_or_app; auto.
        + rewrite app_assoc in E. apply app_inj_tail in E as [_ <-]. apply Forall_app in FR as [_ FR]. inversion FR as [|? ? X _]. subst.
          destruct I as [I|[]]. cbn [fl fst] in X. rewrite <- I in X. destruct (status_not_name X).
      - intros EC FB. apply (forb_app _ _ [fl f]) in FB. apply CF in FB. unfold absent, fl in FB. rewrite EC in FB.
        rewrite values_snoc, beqb_refl in FB. apply app_eq_nil in FB as [_ FB]. discriminate. }
    destruct r; cbn [step_spec] in ST; [|tauto|tauto].
    destruct ST as (_ & R1 & N1).
    destruct (IH s1 (D ++ [fl f]) G' R1) as (s2 & E2 & R2); auto.
    { rewrite N1, NP, forallb_app. cbn [forallb fl fst]. rewrite andb_true_r, negb_andb. reflexivity. }
    exists s2. rewrite E2. auto.
Qed.

(* the state before a response section: nothing seen of it yet *)
Definition fresh (connect head : bool) (s : http) : Prop :=
  h_status s = false /\ h_code s = -1 /\ h_clen s = -1 /\ h_nopseudo s = false /\
  h_connect s = connect /\ h_head s = head /\ h_recv s = 0.
Lemma fresh_repr c h s : fresh c h s -> repr c h 0 s [].
Proof. intros (A & B & C & _ & D & E & F). constructor; auto. Qed.
Lemma code_status D : dwfr false D \/ dwfr true D -> present n_status D ->
  exists v, values n_status D = [v] /\ code_of D = num v /\ 100 <= num v <= 999.
Proof.
  intros W P. assert (X : wfp known_res singles_res fokr D) by (destruct W as [[W _]|[W _]]; exact W).
  destruct X as [OK _ O2]. specialize (O2 n_status (or_introl eq_refl)). unfold at_most_once in O2. unfold present in P. unfold code_of.
  destruct (values n_status D) as [|v [|w r]] eqn:E; [congruence| |cbn in O2; lia].
  exists v. split; [reflexivity|]. split; [reflexivity|].
  assert (I : In (n_status, v) D) by (apply values_in; rewrite E; left; reflexivity).
  destruct (OK _ _ I) as (N & L & A & _). pose proof (num3 _ N L). lia.
Qed.
(* what the body of the message must add up to; None: anything *)
Definition body_len (connect head : bool) (D : fields) (n : Z) : Prop :=
  ((head = true \/ status_is D (fun c => c = 304 \/ c = 204)) -> n = 0) /\
  (head = false -> connect = false -> ~ status_is D (fun c => c = 304 \/ c = 204) -> n = clen_of D) /\
  (head = false -> connect = true -> ~ status_is D (fun c => c = 304 \/ c = 204) -> n = -1).
Lemma accept_response_sound sf connect head s l s' out : Forall good_field l -> fresh connect head s ->
  accept_response sf s l = Some (s', out) ->
  wf_response connect (map fl out) /\ drops (fun f => bad_res connect (map fl out) (fl f)) l out /\
  (informational (map fl out) -> fresh connect head s' /\ h_final s' = true) /\
  (~ informational (map fl out) -> h_final s' = false /\ h_recv s' = 0 /\ body_len connect head (map fl out) (h_clen s')).
Proof.
  intros G F. unfold accept_response. destruct (on_headers sf s l false false false) as [[s0 o] ok] eqn:E.
  destruct ok; [|discriminate]. destruct (on_response_headers s0) as [s1 ok] eqn:F1. destruct ok; [|discriminate].
  intros X. injection X as <- <-.
  destruct (res_sound sf false connect head 0 l _ [] _ _ G (fresh_repr _ _ _ F) (dwfr_nil connect) ltac:(constructor) E) as (R & W & Dr).
  cbn [app] in *. pose proof R as []. revert F1. unfold on_response_headers.
  rewrite q_status. destruct (presentb n_status (map fl o)) eqn:P; cbn [negb]; [|discriminate]. apply presentb_spec in P.
  destruct (code_status (map fl o)) as (v & VE & CE & CR); [destruct connect; auto|exact P|].
  assert (Q : Z.quot (h_code s0) 100 = num v / 100) by (rewrite q_code, CE; apply Z.quot_div_nonneg; lia).
  rewrite Q. intros F1.
  assert (INF : informational (map fl o) <-> num v / 100 = 1).
  { unfold informational, status_is. rewrite VE. split; [intros (w & K & H); injection K as <-; exact H|eauto]. }
  assert (ST34 : status_is (map fl o) (fun c => c = 304 \/ c = 204) <-> num v = 304 \/ num v = 204).
  { unfold status_is. rewrite VE. split; [intros (w & K & H); injection K as <-; exact H|eauto]. }
  split; [apply wf_response_split; auto|]. split; [exact Dr|].
  destruct (num v / 100 =? 1) eqn:I1; [apply Z.eqb_eq in I1|apply Z.eqb_neq in I1].
  - injection F1 as <-. split; [|tauto]. intros _. split; [|reflexivity].
    unfold fresh. cbn. repeat split; auto.
  - split; [tauto|]. intros _.
    set (s2 := hs_final s0 false) in *.
    assert (EB : expect_response_body s2 = negb head && negb (num v =? 304) && negb (num v =? 204)).
    { unfold expect_response_body. subst s2. cbn [hs_final h_head h_code].
      rewrite q_head, Q, q_code, CE. replace (num v / 100 =? 1) with false by lia. cbn [negb]. rewrite andb_true_r. reflexivity. }
    rewrite EB in F1. change (h_connect s2) with (h_connect s0) in F1. rewrite q_connect in F1.
    unfold body_len. rewrite ST34.
    destruct head; cbn [negb andb] in F1.
    { injection F1 as <-. cbn. repeat split; auto; discriminate. }
    destruct (num v =? 304) eqn:I304; cbn [negb andb] in F1.
    { injection F1 as <-. cbn. apply Z.eqb_eq in I304. repeat split; auto; tauto. }
    destruct (num v =? 204) eqn:I204; cbn [negb andb] in F1.
    { injection F1 as <-. cbn. apply Z.eqb_eq in I204. repeat split; auto; tauto. }
    apply Z.eqb_neq in I304, I204.
    destruct connect; injection F1 as <-; cbn; repeat split; auto; try discriminate; try tauto; try (intros [K|[K|K]]; [discriminate|lia|lia]).
    intros _ _ _. apply q_clen. congruence.
Qed.
Lemma accept_response_complete sf connect head s l : Forall good_field l -> fresh connect head s ->
  wf_response connect (map fl l) -> exists s', accept_response sf s l = Some (s', l).
Proof.
  intros G F WF. apply wf_response_split in WF as [W P]. pose proof F as (_ & _ & _ & NPS & _).
  destruct (res_complete sf false connect head 0 l s [] G (fresh_repr _ _ _ F) NPS W) as (s0 & E & R). cbn [app] in R.
  unfold accept_response. rewrite E. pose proof R as []. unfold on_response_headers. rewrite q_status.
  apply presentb_spec in P. rewrite P. cbn [negb].
  repeat match goal with |- context [if ?b then _ else _] => destruct b end; eauto.
Qed.
Lemma record_method_fresh l :
  fresh (method_is (bs "CONNECT") l) (method_is (bs "HEAD") l) (record_request_method http_init l).
Proof.
  unfold method_is. induction l as [|f l IH]; cbn [record_request_method first_method].
  - repeat split.
  - change [58; 109; 101; 116; 104; 111; 100] with n_method. destruct (beqb (nv_name f) n_method); [|exact IH].
    change (bs "CONNECT") with MCONNECT. change (bs "HEAD") with MHEAD.
    destruct (beqb (nv_value f) MCONNECT) eqn:C.
    { apply beqb_spec in C. rewrite C. repeat split. }
    destruct (beqb (nv_value f) MHEAD); repeat split.
Qed.
Lemma awaiting_fresh sf req s : awaiting sf req s ->
  fresh (method_is (bs "CONNECT") req) (method_is (bs "HEAD") req) s.
Proof.
  induction 1; [apply record_method_fresh|].
  destruct (accept_response_sound _ _ _ _ _ _ _ H0 IHawaiting H1) as (_ & _ & F & _). apply F; auto.
Qed.

(* ---------------- trailers ---------------- *)
Lemma regular_step_spec s n v s' r : bytes n -> bytes v -> n <> [] -> regular_step s n v = (s', r) ->
  match r with HKeep => name_ok n /\ value_ok v | HDrop => ~ name_ok n \/ ~ value_ok v | HBad => ~ name_ok n end.
Proof.
  intros Bn Bv NN. unfold regular_step. cbn zeta. pose proof (check_name_spec n Bn) as NS.
  assert (NO : name_ok n <-> check_nonempty_header_name n = 1) by (unfold name_ok; tauto).
  destruct (check_name_range n Bn) as [X|[X|X]]; rewrite X in *; cbn [Z.eqb].
  - pose proof (check_value_spec v Bv) as VS. destruct (check_header_value v); cbn [negb]; intros E; injection E as <- <-.
    + split; tauto.
    + right. intros K. apply VS in K. discriminate.
  - intros E; injection E as <- <-. left. intros K. apply NO in K. discriminate.
  - intros E; injection E as <- <-. intros K. apply NO in K. discriminate.
Qed.
Definition trailer_ok (n v : list Z) : Prop :=
  name_ok n /\ value_ok v /\ ~ In n conn_specific /\ n <> n_clen /\ (n = n_te -> same_ci (bs "trailers") v).
Lemma kind_not_conn n : kind_of n <> KConn -> ~ In n conn_specific.
Proof. intros K I. apply kind_conn in I. congruence. Qed.
Lemma kind_not n m : kind_of n <> kind_of m -> n <> m.
Proof. congruence. Qed.
Lemma name_ok_host : name_ok n_host.
Proof. split; [discriminate|]. apply check_name_spec; [|reflexivity]. repeat constructor; unfold is_byte; lia. Qed.
Lemma name_ok_priority : name_ok n_priority.
Proof. split; [discriminate|]. apply check_name_spec; [|reflexivity]. repeat constructor; unfold is_byte; lia. Qed.
Lemma kind_regular n : kind_of n = KOther -> n <> [] /\ ~ pseudo n.
Proof.
  intros K. split; [intros ->; vm_compute in K; discriminate|].
  intros (t & ->). revert K. unfold kind_of.
  repeat match goal with |- context [if beqb ?a ?b then _ else _] => destruct (beqb a b); [discriminate|] end.
  destruct (inb (58 :: t) conn_specific); [discriminate|].
  repeat match goal with |- context [if beqb ?a ?b then _ else _] => destruct (beqb a b); [discriminate|] end. discriminate.
Qed.
Lemma kind_pseudo n : kind_of n = KPseudo -> pseudo n.
Proof.
  destruct n as [|c n]; [vm_compute; discriminate|]. unfold kind_of.
  repeat match goal with |- context [if beqb ?a ?b then _ else _] => destruct (beqb a b); [discriminate|] end.
  destruct (inb (c :: n) conn_specific); [discriminate|].
  repeat match goal with |- context [if beqb ?a ?b then _ else _] => destruct (beqb a b); [discriminate|] end.
  destruct (c =? 58) eqn:C; [|discriminate]. apply Z.eqb_eq in C. subst c. intros _. exists n. reflexivity.
Qed.
Lemma kind_empty n : kind_of n = KEmpty -> n = [].
Proof.
  destruct n; auto. unfold kind_of.
  repeat match goal with |- context [if ?b then _ else _] => destruct b; [discriminate|] end. discriminate.
Qed.
(* one trailer field; [host_ok] only matters for a second host field in a request *)
Lemma trailer_step sf s f request ext s' r : good_field f ->
  on_header sf s f request true ext = (s', r) ->
  match r with
  | HKeep => trailer_ok (q_name f) (q_value f)
  | HDrop => bad_field (fl f) \/ q_name f = n_clen
  | HBad => ~ trailer_ok (q_name f) (q_value f) \/ (request = true /\ q_name f = n_host)
  end.
Proof.
  intros (T & Bn & Bv). destruct f as [n v t ff]. unfold fl. cbn [q_name q_value].
  assert (TK : forall K, kind_of n = K -> match K with KTe | KHost | KPriority | KOther => True | _ => False end ->
               name_ok n -> value_ok v -> (K = KTe -> same_ci (bs "trailers") v) -> trailer_ok n v).
  { intros K KE KK N V TE. split; [exact N|]. split; [exact V|]. split; [apply kind_not_conn; destruct K; congruence || contradiction|].
    split; [apply kind_not; rewrite KE; change (kind_of n_clen) with KClen; destruct K; congruence || contradiction|].
    intros ->. apply TE. change (kind_of n_te) with KTe in KE. auto. }
  assert (RG : forall s s' r, regular_step s n v = (s', r) -> n <> [] -> ~ pseudo n ->
     match kind_of n with KHost | KPriority | KOther => True | _ => False end ->
     match r with HKeep => trailer_ok n v | HDrop => bad_field (n, v) \/ n = n_clen
       | HBad => ~ trailer_ok n v \/ (request = true /\ n = n_host) end).
  { intros s1 s1' r1 E NN NP K. pose proof (regular_step_spec _ _ _ _ _ Bn Bv NN E) as X. destruct r1.
    - destruct X. eapply TK; [reflexivity| |auto|auto|]; destruct (kind_of n); try contradiction; auto; discriminate.
    - left. unfold bad_field. cbn [fst snd]. tauto.
    - left. unfold trailer_ok. tauto. }
  assert (BAD : ~ name_ok n -> ~ trailer_ok n v \/ (request = true /\ n = n_host)) by (unfold trailer_ok; tauto).
  destruct request.
  - rewrite on_header_req by auto. cbn [q_name q_value]. unfold kreq, pseudo_step. cbn [orb].
    destruct (kind_of n) eqn:K; try (kname K; intros E; injection E as <- <-; apply BAD; apply colon_not_tchar).
    + kname K. destruct (check_authority v) eqn:C; cbn [negb].
      * apply check_authority_spec in C; auto. destruct (h_host s || is_nil v); intros E; injection E as <- <-; [right; auto|].
        eapply TK; [reflexivity|exact I|apply name_ok_host| |discriminate].
        apply visible_ok. eapply Forall_impl; [|exact C]. apply authority_visible.
      * intros E; injection E as <- <-. left. right; right. split; [reflexivity|]. cbn [snd]. rewrite <- check_authority_spec by auto. congruence.
    + kname K. intros E; injection E as <- <-. right; reflexivity.
    + intros E; injection E as <- <-. left. apply kind_of_conn in K. unfold trailer_ok. tauto.
    + kname K. destruct (strieq STRAILERS v) eqn:C; intros E; injection E as <- <-.
      * apply strieq_spec in C. eapply TK; [reflexivity|exact I|apply name_ok_te|apply visible_ok, trailers_visible; exact C|auto].
      * left. intros (_ & _ & _ & _ & X). specialize (X eq_refl). apply strieq_spec in X. change (bs "trailers") with STRAILERS in X. congruence.
    + kname K. unfold prio_step. pose proof (check_value_spec v Bv) as VS. destruct (check_header_value v); cbn [negb orb]; intros E; injection E as <- <-.
      * eapply TK; [reflexivity|exact I|apply name_ok_priority|tauto|discriminate].
      * left. right; left. cbn [snd]. intros X. apply VS in X. discriminate.
    + apply kind_empty in K. subst n. intros E; injection E as <- <-. left. left. cbn. split; [intros (? & X); discriminate|intros [X _]; congruence].
    + intros E; injection E as <- <-. apply BAD. apply kind_pseudo in K as (t0 & ->). apply colon_not_tchar.
    + intros E. destruct (kind_regular n K). eapply RG; eauto.
  - rewrite on_header_res by auto. cbn [q_name q_value]. unfold kres. cbn [orb].
    destruct (kind_of n) eqn:K; try (kname K; intros E; injection E as <- <-; apply BAD; apply colon_not_tchar).
    + kname K. intros E. eapply RG; [exact E|discriminate|intros (? & X); discriminate|exact I].
    + kname K. intros E; injection E as <- <-. right; reflexivity.
    + intros E; injection E as <- <-. left. apply kind_of_conn in K. unfold trailer_ok. tauto.
    + kname K. destruct (strieq STRAILERS v) eqn:C; intros E; injection E as <- <-.
      * apply strieq_spec in C. eapply TK; [reflexivity|exact I|apply name_ok_te|apply visible_ok, trailers_visible; exact C|auto].
      * left. intros (_ & _ & _ & _ & X). specialize (X eq_refl). apply strieq_spec in X. change (bs "trailers") with STRAILERS in X. congruence.
    + kname K. intros E. eapply RG; [exact E|discriminate|intros (? & X); discriminate|exact I].
    + apply kind_empty in K. subst n. intros E; injection E as <- <-. left. left. cbn. split; [intros (? & X); discriminate|intros [X _]; congruence].
    + intros E; injection E as <- <-. apply BAD. apply kind_pseudo in K as (t0 & ->). apply colon_not_tchar.
    + intros E. destruct (kind_regular n K). eapply RG; eauto.
Qed.
Lemma wf_trailers_iff l : wf_trailers l <-> (forall n v, In (n, v) l -> trailer_ok n v).
Proof.
  split.
  - intros [[CO CN CV CC CT CL1 CL2] A] n v I. rewrite values_forall in CT. rewrite Forall_forall in CV.
    split; [destruct (ordered_in _ _ _ _ CO I) as [[]|X]; exact X|]. split; [exact (CV _ I)|].
    split; [intros J; apply CC in J; rewrite absent_spec in J; destruct (J v I)|].
    split; [intros ->; rewrite absent_spec in A; destruct (A v I)|]. intros ->. auto.
  - intros H. assert (A : absent n_clen l) by (apply absent_spec; intros v I; destruct (H _ _ I) as (_ & _ & _ & X & _); congruence).
    constructor; [constructor|exact A].
    + exists [], l. split; [reflexivity|]. split; [constructor|]. apply Forall_forall. intros [n v] I. apply (H _ _ I).
    + intros n [].
    + apply Forall_forall. intros [n v] I. apply (H _ _ I).
    + intros n J. apply absent_spec. intros v I. destruct (H _ _ I) as (_ & _ & X & _). auto.
    + apply values_forall. intros v I. destruct (H _ _ I) as (_ & _ & _ & _ & X). auto.
    + unfold at_most_once. rewrite A. cbn. lia.
    + rewrite A. constructor.
Qed.
Lemma trailers_sound sf request ext l : forall s s' out, Forall good_field l ->
  on_headers sf s l request true ext = (s', out, true) ->
  wf_trailers (map fl out) /\ drops (fun f => bad_field (fl f) \/ q_name f = n_clen) l out.
Proof.
  induction l as [|f l IH]; intros s s' out G E; cbn [on_headers] in E.
  - injection E as <- <-. split; [apply wf_trailers_iff; intros ? ? []|constructor].
  - inversion G as [|? ? Gf G']; subst. destruct (on_header sf s f request true ext) as [s1 r] eqn:O.
    pose proof (trailer_step _ _ _ _ _ _ _ Gf O) as T. destruct r; [| |discriminate].
    + destruct (on_headers sf s1 l request true ext) as [[s2 o2] ok] eqn:E2. injection E as <- <- ->.
      destruct (IH _ _ _ G' E2) as [W D]. split; [|constructor; auto]. rewrite wf_trailers_iff in *.
      intros n v [I|I]; [injection I as <- <-; exact T|auto].
    + destruct (IH _ _ _ G' E) as [W D]. split; [exact W|]. apply drops_drop; auto.
Qed.
Lemma trailers_complete sf request ext l : forall s, Forall good_field l -> (request = true -> absent n_host (map fl l)) ->
  wf_trailers (map fl l) -> exists s', on_headers sf s l request true ext = (s', l, true).
Proof.
  induction l as [|f l IH]; intros s G NH W; cbn [on_headers]; [eauto|].
  inversion G as [|? ? Gf G']; subst. rewrite wf_trailers_iff in W.
  destruct (on_header sf s f request true ext) as [s1 r] eqn:O.
  pose proof (trailer_step _ _ _ _ _ _ _ Gf O) as T.
  assert (TO : trailer_ok (q_name f) (q_value f)) by (apply W; left; reflexivity).
  destruct r.
  - destruct (IH s1 G') as (s2 & E2); [| |rewrite E2; eauto].
    + intros R. specialize (NH R). rewrite absent_spec in *. intros v I. apply (NH v). right; exact I.
    + apply wf_trailers_iff. intros n v I. apply W. right; exact I.
  - exfalso. destruct TO as (N & V & _ & NC & _). destruct T as [[[_ B]|[B|[B1 B2]]]|B]; cbn [fl fst snd] in *; try contradiction.
    destruct request; [specialize (NH eq_refl); rewrite absent_spec in NH; apply (NH (q_value f)); left; unfold fl; congruence|].
    (* a response drops no host field for its value *)
    destruct Gf as (T1 & Bn & Bv). rewrite on_header_res in O by auto. unfold kres in O. rewrite B1 in O. change (kind_of n_host) with KHost in O. cbn in O.
    pose proof (regular_step_spec s (q_name f) (q_value f) s1 HDrop Bn Bv) as X. rewrite B1 in X. specialize (X ltac:(discriminate) O). rewrite B1 in N. tauto.
  - exfalso. destruct T as [B|[B1 B2]]; [contradiction|]. specialize (NH B1). rewrite absent_spec in NH. apply (NH (q_value f)). left. unfold fl. congruence.
Qed.

(* ---------------- content-length ---------------- *)
Lemma zsum_nonneg ns : Forall (fun n => 0 <= n) ns -> 0 <= zsum ns.
Proof. induction 1; cbn [zsum fold_right]; [lia|]. unfold zsum in *. lia. Qed.
Lemma body_spec ns : forall s, Forall (fun n => 0 <= n) ns -> h_final s = false ->
  match body s ns with
  | Some s' => h_final s' = false /\ h_clen s' = h_clen s /\ h_recv s' = h_recv s + zsum ns /\
               (ns <> [] -> h_clen s <> -1 -> h_recv s + zsum ns <= h_clen s)
  | None => h_clen s <> -1 /\ h_recv s + zsum ns > h_clen s
  end.
Proof.
  induction ns as [|n ns IH]; intros s F H; cbn [body].
  - cbn. split; [auto|]. split; [auto|]. split; [lia|]. congruence.
  - inversion F as [|? ? Hn F']; subst. pose proof (zsum_nonneg ns F').
    unfold on_data_chunk. change (h_final (hs_recv s (h_recv s + n))) with (h_final s).
    change (h_clen (hs_recv s (h_recv s + n))) with (h_clen s). change (h_recv (hs_recv s (h_recv s + n))) with (h_recv s + n).
    rewrite H. cbn [orb]. change (zsum (n :: ns)) with (n + zsum ns).
    destruct (negb (h_clen s =? -1) && (h_recv s + n >? h_clen s)) eqn:B; cbn [negb].
    + lia.
    + specialize (IH (hs_recv s (h_recv s + n)) F' H). 
      change (h_clen (hs_recv s (h_recv s + n))) with (h_clen s) in IH. change (h_recv (hs_recv s (h_recv s + n))) with (h_recv s + n) in IH.
      destruct (body (hs_recv s (h_recv s + n)) ns) as [s'|]; [|lia].
      destruct IH as (A & B1 & C & D). split; [exact A|]. split; [exact B1|]. split; [lia|]. intros _ N.
      destruct ns as [|m ns]; [cbn in *; lia|]. specialize (D ltac:(discriminate) N). lia.
Qed.

Lemma clen_of_cases D : at_most_once n_clen D -> Forall (fun v => number v /\ num v <= max_varint) (values n_clen D) ->
  (absent n_clen D /\ clen_of D = -1) \/ (exists v, values n_clen D = [v] /\ clen_of D = num v /\ 0 <= num v).
Proof.
  unfold at_most_once, absent, clen_of. destruct (values n_clen D) as [|v [|w r]]; [auto| |cbn; lia].
  intros _ F. right. exists v. inversion F as [|? ? X _]; subst. destruct (parse_uint_spec v) as [[_ N]|(P & _ & R)]; [contradiction|].
  rewrite P. split; [reflexivity|]. split; [reflexivity|]. lia.
Qed.
Lemma body_end s ns : Forall (fun n => 0 <= n) ns -> h_final s = false -> h_recv s = 0 -> -1 <= h_clen s ->
  ((exists s', body s ns = Some s') <-> (h_clen s = -1 \/ zsum ns <= h_clen s)) /\
  ((exists s', body s ns = Some s' /\ on_remote_end_stream s' = true) <-> (h_clen s = -1 \/ zsum ns = h_clen s)).
Proof.
  intros F HF HR HC. pose proof (body_spec ns s F HF) as B. pose proof (zsum_nonneg ns F).
  destruct (body s ns) as [s'|].
  - destruct B as (A & B1 & C & D). split.
    + split; [|eauto]. intros _. destruct (Z.eq_dec (h_clen s) (-1)); [auto|]. right.
      destruct ns; [cbn in *; lia|]. specialize (D ltac:(discriminate) n). lia.
    + split.
      * intros (s2 & E & R). injection E as <-. unfold on_remote_end_stream in R. rewrite A, B1, C, HR in R. cbn [orb] in R. lia.
      * intros K. exists s'. split; [reflexivity|]. unfold on_remote_end_stream. rewrite A, B1, C, HR. cbn [orb]. lia.
  - destruct B as [B1 B2]. split; (split; [intros (s2 & E); first [discriminate E | destruct E as [E _]; discriminate E]|lia]).
Qed.
Lemma request_body sf ext l s out ns : Forall good_field l -> accept_request sf ext l = Some (s, out) -> Forall (fun n => 0 <= n) ns ->
  ((exists s', body s ns = Some s') <->
   (plain_connect (map fl out) \/ forall v, In v (values n_clen (map fl out)) -> zsum ns <= num v)) /\
  ((exists s', body s ns = Some s' /\ on_remote_end_stream s' = true) <->
   (plain_connect (map fl out) \/ forall v, In v (values n_clen (map fl out)) -> zsum ns = num v)).
Proof.
  intros G E F. destruct (accept_request_sound _ _ _ _ _ G E) as (W & _ & HF & HR & P1 & P2).
  destruct W as [[? ? ? ? ? C1 C2]]. destruct (clen_of_cases _ C1 C2) as [[A CE]|(v & VE & CE & NV)].
  - assert (HC : h_clen s = -1).
    { destruct (list_eq_dec (list_eq_dec Z.eq_dec) (values n_protocol (map fl out)) []) as [X|X];
      [destruct (in_dec (list_eq_dec Z.eq_dec) (bs "CONNECT") (values n_method (map fl out))) as [Y|Y]|].
      - apply P1. split; auto.
      - rewrite P2, CE; auto. intros [_ K]. contradiction.
      - rewrite P2, CE; auto. intros [K _]. contradiction. }
    destruct (body_end s ns F HF HR ltac:(lia)) as [B1 B2]. rewrite B1, B2, A. split; (split; [intros _; right; intros ? []|auto]).
  - assert (DEC : plain_connect (map fl out) \/ ~ plain_connect (map fl out)).
    { unfold plain_connect, absent. destruct (list_eq_dec (list_eq_dec Z.eq_dec) (values n_protocol (map fl out)) []) as [X|X];
      [destruct (in_dec (list_eq_dec Z.eq_dec) (bs "CONNECT") (values n_method (map fl out))) as [Y|Y]|]; tauto. }
    destruct DEC as [PC|PC].
    + specialize (P1 PC). destruct (body_end s ns F HF HR ltac:(lia)) as [B1 B2]. rewrite B1, B2. tauto.
    + specialize (P2 PC). rewrite CE in P2. destruct (body_end s ns F HF HR ltac:(lia)) as [B1 B2]. rewrite B1, B2, VE, P2.
      split; (split; [intros [K|K]; [lia|right; intros w [<-|[]]; exact K]|intros [K|K]; [contradiction|right; apply K; left; reflexivity]]).
Qed.
Lemma response_body sf req s l s' out ns : awaiting sf req s -> Forall good_field l -> accept_response sf s l = Some (s', out) ->
  ~ informational (map fl out) -> Forall (fun n => 0 <= n) ns ->
  ((exists s2, body s' ns = Some s2 /\ on_remote_end_stream s2 = true) <->
   if method_is (bs "HEAD") req then zsum ns = 0
   else (status_is (map fl out) (fun c => c = 304 \/ c = 204) -> zsum ns = 0) /\
        (method_is (bs "CONNECT") req = false -> ~ status_is (map fl out) (fun c => c = 304 \/ c = 204) ->
         forall v, In v (values n_clen (map fl out)) -> zsum ns = num v)) /\
  ((exists s2, body s' ns = Some s2) <->
   if method_is (bs "HEAD") req then zsum ns = 0
   else (status_is (map fl out) (fun c => c = 304 \/ c = 204) -> zsum ns = 0) /\
        (method_is (bs "CONNECT") req = false -> ~ status_is (map fl out) (fun c => c = 304 \/ c = 204) ->
         forall v, In v (values n_clen (map fl out)) -> zsum ns <= num v)).
Proof.
  intros AW G E NI F. pose proof (awaiting_fresh _ _ _ AW) as FR.
  destruct (accept_response_sound _ _ _ _ _ _ _ G FR E) as (W & _ & _ & Q). destruct (Q NI) as (HF & HR & B1 & B2 & B3). clear Q.
  pose proof (zsum_nonneg ns F) as NS.
  destruct W as [[? ? ? ? ? C1 C2] (sv & SE & _) _].
  assert (DEC : status_is (map fl out) (fun c => c = 304 \/ c = 204) \/ ~ status_is (map fl out) (fun c => c = 304 \/ c = 204)).
  { unfold status_is. rewrite SE. destruct (Z.eq_dec (num sv) 304); [left; eauto|]. destruct (Z.eq_dec (num sv) 204); [left; eauto|].
    right. intros (w & K & H). injection K as <-. tauto. }
  destruct (method_is (bs "HEAD") req).
  { specialize (B1 (or_introl eq_refl)). destruct (body_end s' ns F HF HR ltac:(lia)) as [X1 X2]. rewrite X1, X2, B1. split; lia. }
  destruct DEC as [D|D].
  { specialize (B1 (or_intror D)). destruct (body_end s' ns F HF HR ltac:(lia)) as [X1 X2]. rewrite X1, X2, B1.
    split; (split; [intros K; split; [intros _; lia|tauto]|intros [K _]; specialize (K D); lia]). }
  destruct (method_is (bs "CONNECT") req).
  { specialize (B3 eq_refl eq_refl D). destruct (body_end s' ns F HF HR ltac:(lia)) as [X1 X2]. rewrite X1, X2, B3.
    split; (split; [intros _; split; [tauto|discriminate]|lia]). }
  specialize (B2 eq_refl eq_refl D).
  destruct (clen_of_cases _ C1 C2) as [[A CE]|(v & VE & CE & NV)]; rewrite CE in B2.
  - destruct (body_end s' ns F HF HR ltac:(lia)) as [X1 X2]. rewrite X1, X2, B2, A.
    split; (split; [intros _; split; [tauto|intros _ _ w []]|lia]).
  - destruct (body_end s' ns F HF HR ltac:(lia)) as [X1 X2]. rewrite X1, X2, B2, VE.
    split; (split; [intros [K|K]; [lia|split; [tauto|intros _ _ w [<-|[]]; exact K]]|intros [_ K]; right; apply (K eq_refl D); left; reflexivity]).
Qed.
Lemma received_field sf s f request trailers ext s' r :
  good_field f -> ~ pseudo (q_name f) ->
  ~ In (q_name f) (n_host :: n_clen :: n_te :: bs "priority" :: conn_specific) ->
  on_header sf s f request trailers ext = (s', r) ->
  (r = HKeep <-> name_ok (q_name f) /\ value_ok (q_value f)).
Proof.
  intros (T & Bn & Bv) NP NI.
  assert (K : kind_of (q_name f) = KOther \/ q_name f = []).
  { destruct (kind_of (q_name f)) eqn:K; auto;
      try (assert (X : forall m, kind_name (kind_of (q_name f)) = Some m -> q_name f = m) by (intros; apply kind_of_name; assumption);
           rewrite K in X; specialize (X _ eq_refl); exfalso;
           first [apply NP; rewrite X; eexists; reflexivity | apply NI; rewrite X; apply inb_spec; vm_compute; reflexivity]).
    - exfalso. apply NI. right; right; right; right. apply kind_of_conn. exact K.
    - right. apply kind_empty; auto.
    - exfalso. apply NP. apply kind_pseudo; auto. }
  assert (REG : on_header sf s f request trailers ext = regular_step s (q_name f) (q_value f) \/ q_name f = []).
  { destruct K as [K|K]; [left|auto]. destruct request; [rewrite on_header_req by auto; unfold kreq|rewrite on_header_res by auto; unfold kres]; rewrite K; reflexivity. }
  intros E. destruct (list_eq_dec Z.eq_dec (q_name f) []) as [X|X].
  - unfold on_header in E. rewrite X in *. injection E as <- <-. split; [discriminate|]. intros [[N _] _]. congruence.
  - destruct REG as [REG|]; [|contradiction]. rewrite REG in E. pose proof (regular_step_spec _ _ _ _ _ Bn Bv X E) as S. destruct r; split; intros; try discriminate; tauto.
Qed.
