(* The encodings of a stream: what its header sections produced for the encoder stream, and what an encoder stream holds *)
From Verif Require Import Base BaseLemmas ConvModel QpackTabModel QpackDecModel ControlModel TxModel TxSpec TxProofs TxRefine TxFill TxTrace ConnModel ConnDecomp ConnHist SendSpec ConnTx.
Open Scope Z_scope.

Lemma sections_app a b : sections (a ++ b) = sections a ++ sections b. Proof. unfold sections. rewrite map_app, concat_app. reflexivity. Qed.
Lemma submitted_snoc a b : submitted (a ++ b) = submitted a ++ submitted b. Proof. unfold submitted. rewrite map_app, concat_app. reflexivity. Qed.
Lemma sections_none l : sections l = [] -> no_headers l.
Proof. intros H nva I. apply in_split in I as (x & y & ->). rewrite sections_app in H. apply app_eq_nil in H as [_ H]. discriminate. Qed.
(* the k-th header section was given to the encoder and produced the k-th element of [es] *)
Definition answers (E : txenv) (ns : list (list ConvModel.nv)) (es : list (list Z)) : Prop :=
  length ns = length es /\ forall k e, nth_error es k = Some e -> exists nva p r, nth_error ns k = Some nva /\ te_enc E k nva = Ok (p, r, e).
Lemma answers_snoc E ns es nva p r e : answers E ns es -> te_enc E (length es) nva = Ok (p, r, e) -> answers E (ns ++ [nva]) (es ++ [e]).
Proof.
  intros [L A] T. split; [rewrite !app_length; cbn; lia|]. intros k e' H. destruct (lt_dec k (length es)) as [C|C].
  - rewrite nth_error_app1 in H by exact C. destruct (A _ _ H) as (nva' & p' & r' & N & T'). exists nva', p', r'. split; [|exact T']. rewrite nth_error_app1 by lia. exact N.
  - assert (k = length es) as ->. { assert (k < length (es ++ [e]))%nat by (apply nth_error_Some; congruence). rewrite app_length in H0. cbn in H0. lia. }
    rewrite nth_error_app2, Nat.sub_diag in H by lia. injection H as <-. exists nva, p, r. split; [|exact T]. rewrite nth_error_app2, L, Nat.sub_diag by lia. reflexivity.
Qed.
(* [subm]: the frames submitted *)
Definition GI (E : txenv) (subm : list TxModel.frame) (es : list (list Z)) (a : ast) : Prop :=
  exists ns, sections subm = ns ++ sections (a_pend a) /\ answers E ns es /\ a_enc a = length es.
Lemma emit_GI E subm es a ns b : emit E a ns b -> GI E subm es a -> GI E subm (es ++ ns) b.
Proof.
  intros H (m & S & A & N). destruct H; cbn [a_pend a_enc] in *; rewrite ?app_nil_r; try (exists m; auto; fail).
  - exists (m ++ [nva]). split; [rewrite S, <- app_assoc; reflexivity|]. split; [|rewrite app_length; cbn; lia]. eapply answers_snoc; [exact A|]. rewrite <- N. eassumption.
  - exists m. split; [destruct eof; exact S|]. auto.
Qed.
Lemma emits_GI E a ns b : emits E a ns b -> forall subm es, GI E subm es a -> GI E subm (es ++ ns) b.
Proof. induction 1; intros subm es0 G; [rewrite app_nil_r; exact G|]. rewrite app_assoc. apply IHemits. eapply emit_GI; eauto. Qed.
Lemma call_GI E L a o r b : call E L a o r b -> forall subm es, GI E subm es a -> GI E (subm ++ submitted (tv1 (o, r))) (es ++ snd (gh1 (o, r))) b.
Proof.
  intros H subm es G. destruct H; cbn [tv1 gh1 snd g0]; cbn [submitted map concat app]; rewrite ?app_nil_r; auto.
  - destruct G as (m & S & A & N). exists m. cbn [a_pend a_enc] in *. rewrite !sections_app, S, <- app_assoc. auto.
  - destruct (a_blk a); [destruct H as [-> ->]; rewrite app_nil_r; auto|]. eapply emits_GI; eauto.
  - destruct (a_blk a); [destruct H as [-> ->]; rewrite app_nil_r; auto|]. eapply emits_GI; eauto.
Qed.
Lemma calls_GI E L a tr b : calls E L a tr b -> forall subm g, GI E subm (snd g) a -> GI E (subm ++ submitted (tvis tr)) (snd (fold_left (fun g x => gadd g (gh1 x)) tr g)) b.
Proof.
  induction 1; intros subm g G; [cbn; rewrite app_nil_r; exact G|]. cbn [fold_left]. change (tvis ((o, r) :: tr)) with (tv1 (o, r) ++ tvis tr). rewrite submitted_snoc, app_assoc.
  apply IHcalls. cbn [gadd snd]. eapply call_GI; eauto.
Qed.
Theorem tx_answers E ty t log g : txgx E ty t log g -> exists ns, sections (submitted log) = ns ++ sections (t_frq t) /\ answers E ns (snd g) /\ t_nenc t = length (snd g).
Proof.
  intros (tr & a & C & R & V & _ & _ & GH). destruct (calls_GI _ _ _ _ _ C [] g0) as (ns & S & A & N); [exists []; repeat split; intros [|k] e H; discriminate|].
  cbn [app] in S. unfold ghost in GH. rewrite V in S. rewrite GH in A, N. exists ns. rewrite (ti_frq _ _ _ (r_tied _ _ _ R)), (ti_enc _ _ _ (r_tied _ _ _ R)). auto.
Qed.
Lemma tx_no_headers E ty t log g : txgx E ty t log g -> sections (submitted log) = [] -> no_headers (t_frq t).
Proof. intros G S. destruct (tx_answers _ _ _ _ _ G) as (ns & Q & _). rewrite S in Q. symmetry in Q. apply app_eq_nil in Q as [_ Q]. apply sections_none. exact Q. Qed.

(* the wire of an encoder stream: the type, then the instructions *)
Lemma call_instr E L a o r b : call E L a o r b -> fits (Some 2) o = true -> a_pend a = [] -> a_pend b = [] /\ untag (a_wire b) = untag (a_wire a) ++ concat (fst (gh1 (o, r))).
Proof.
  assert (X : forall a es b, (if a_blk a then es = [] /\ b = a else emits E a es b) -> a_pend a = [] -> b = a).
  { intros x es y H P. destruct (a_blk x); [tauto|]. destruct H as [|x e y es z H]; [reflexivity|]. destruct H; cbn in P; discriminate. }
  intros H F P. destruct H; cbn [fits] in F; try discriminate F; cbn [gh1 fst g0 concat]; rewrite ?app_nil_r; auto.
  - cbn [a_pend a_wire] in *. split; [exact P|]. unfold untag. rewrite map_app. unfold tag. rewrite map_map, map_id. reflexivity.
  - rewrite (X _ _ _ H P). auto.
  - rewrite (X _ _ _ H P). auto.
Qed.
Lemma calls_instr E L a tr b : calls E L a tr b -> Forall (fun x => fits (Some 2) (fst x) = true) tr -> a_pend a = [] -> forall g, untag (a_wire a) = 2 :: concat (fst g) ->
  untag (a_wire b) = 2 :: concat (fst (fold_left (fun g x => gadd g (gh1 x)) tr g)).
Proof.
  induction 1; intros F P g W; [exact W|]. inversion F; subst. cbn [fold_left]. destruct (call_instr _ _ _ _ _ _ H H3 P) as [P' W'].
  apply IHcalls; auto. rewrite W', W. cbn [gadd fst]. rewrite concat_app. reflexivity.
Qed.
Theorem shaped_instr E tr a : calls E led0 a0 tr a -> shaped (Some 2) tr -> untag (a_wire a) = 2 :: concat (fst (ghost tr)).
Proof.
  intros C (tr' & -> & F). inversion C as [|? ? ? ? ? ? ? H3 H5]; subst.
  assert (b = mk_a [] (tag false [2]) false false 0 0) as -> by (inversion H3; reflexivity).
  unfold ghost. cbn [fold_left]. eapply calls_instr; [exact H5|exact F|reflexivity|reflexivity].
Qed.
