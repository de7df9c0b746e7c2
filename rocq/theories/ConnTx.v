(* The sending side of each stream of a connection is the one of C31-C34: between the opening of a stream and
   now, what the API did to it is a history of TxSpec *)
From Verif Require Import Base BaseLemmas Chunk ConvModel RdVarint QpackTabModel QpackDecModel HttpModel BidiModel BidiHist ControlModel GapModel PqModel PqProofs PqWeak TxModel TxSpec TxProofs TxRefine TxFill TxTrace SchedModel SchedProofs SchedFair ConnModel ConnCtl ConnStep ConnRx ConnWf ConnDecomp ConnHist SendSpec.
Open Scope Z_scope.

Definition tv1 (x : op * res) : list tev :=
  match x with
  | (OSubmit frs fin, RNone) => [TSubmit frs fin]
  | (OWrite _, ROffer vs fin _) => [TOffer vs fin]
  | (OWritten n, RNone) => [TWritten n]
  | (OAck off, RAcked cs) => [TAck off cs]
  | (TxSpec.OAddAck n, RAcked cs) => [TAddAck n cs]
  | _ => []
  end.
Definition tvis (tr : list (op * res)) : list tev := concat (map tv1 tr).
Lemma led_tv1 L x : led_step L (fst x) (snd x) = fold_left tled_step (tv1 x) L.
Proof. destruct x as [[] []]; reflexivity. Qed.
Lemma led_tvis tr : forall L, fold_left (fun L x => led_step L (fst x) (snd x)) tr L = fold_left tled_step (tvis tr) L.
Proof. induction tr as [|x tr IH]; intros L; [reflexivity|]. unfold tvis. cbn [map concat fold_left]. rewrite fold_left_app, <- led_tv1. apply IH. Qed.
Lemma ledger_tvis tr : ledger_of tr = tled (tvis tr). Proof. apply led_tvis. Qed.
Lemma tvis_app a b : tvis (a ++ b) = tvis a ++ tvis b. Proof. unfold tvis. rewrite map_app, concat_app. reflexivity. Qed.
Lemma tvis_snoc a x : tvis (a ++ [x]) = tvis a ++ tv1 x. Proof. rewrite tvis_app. unfold tvis at 2. cbn. rewrite app_nil_r. reflexivity. Qed.
Lemma calls_snoc E tr : forall L a b o r c, calls E L a tr b -> call E (led_after L tr) b o r c -> calls E L a (tr ++ [(o, r)]) c.
Proof.
  induction tr as [|[o1 r1] tr IH]; intros L a b o r c H C; inversion H; subst; cbn [app].
  - econstructor; [exact C|constructor].
  - econstructor; [eassumption|]. eapply IH; eauto.
Qed.
Lemma ledger_snoc tr x : ledger_of (tr ++ [x]) = led_step (ledger_of tr) (fst x) (snd x).
Proof. unfold ledger_of. rewrite fold_left_app. reflexivity. Qed.

(* the sending side [t] is where a lawful history of one stream leaves it, [log] is what was seen of it *)
Definition fits (ty : option Z) (o : op) : bool :=
  match ty with
  | None => negb (raw o)
  | Some 0 => negb (raw o)
  | Some 2 => match o with OSubmit _ _ | ORaw _ => false | _ => true end
  | Some 3 => match o with OSubmit _ _ | OInstr _ => false | _ => true end
  | _ => false
  end.
Definition shaped (ty : option Z) (tr : list (op * res)) : Prop :=
  match ty with
  | None => Forall (fun x => fits None (fst x) = true) tr
  | Some n => exists tr', tr = (ORaw [n], RNone) :: tr' /\ Forall (fun x => fits ty (fst x) = true) tr'
  end.
Lemma shaped_snoc ty tr o r : shaped ty tr -> fits ty o = true -> shaped ty (tr ++ [(o, r)]).
Proof.
  destruct ty as [n|]; cbn [shaped].
  - intros (tr' & -> & F) H. exists (tr' ++ [(o, r)]). split; [reflexivity|]. apply Forall_app. auto.
  - intros F H. apply Forall_app. auto.
Qed.
Definition txgood (E : txenv) (ty : option Z) (t : txs) (log : list tev) : Prop :=
  exists tr a, calls E led0 a0 tr a /\ rel (ledger_of tr) t a /\ tvis tr = log /\ TxSpec.lawful tr /\ shaped ty tr.
(* the same with what is not seen: the encoder instructions put on the stream, and those its own sections produced *)
Definition gh : Type := list (list Z) * list (list Z).
Definition g0 : gh := ([], []).
Definition gadd (a b : gh) : gh := (fst a ++ fst b, snd a ++ snd b).
Lemma gadd_0 g : gadd g g0 = g. Proof. destruct g. unfold gadd. cbn [fst snd g0]. rewrite !app_nil_r. reflexivity. Qed.
Definition gh1 (x : op * res) : gh :=
  match x with
  | (OInstr e, RNone) => ([e], [])
  | (OWrite _, ROffer _ _ es) | (OFill, RFilled es) => ([], es)
  | _ => g0
  end.
Definition ghost (tr : list (op * res)) : gh := fold_left (fun g x => gadd g (gh1 x)) tr g0.
Lemma ghost_snoc tr x : ghost (tr ++ [x]) = gadd (ghost tr) (gh1 x). Proof. unfold ghost. rewrite fold_left_app. reflexivity. Qed.
Definition txgx (E : txenv) (ty : option Z) (t : txs) (log : list tev) (g : gh) : Prop :=
  exists tr a, calls E led0 a0 tr a /\ rel (ledger_of tr) t a /\ tvis tr = log /\ TxSpec.lawful tr /\ shaped ty tr /\ ghost tr = g.
Lemma txgx_good E ty t log g : txgx E ty t log g -> txgood E ty t log.
Proof. intros (tr & a & C & R & V & LW & SH & _). exists tr, a. auto 10. Qed.
Lemma tg_init E : txgx E None tx_init [] g0.
Proof. exists [], a0. split; [constructor|]. split; [apply rel0|]. split; [reflexivity|]. split; [|split; [constructor|reflexivity]]. intros pre o r post H. destruct pre; discriminate. Qed.
Lemma lawful_snoc tr o r : TxSpec.lawful tr -> TxSpec.op_ok (ledger_of tr) o -> TxSpec.lawful (tr ++ [(o, r)]).
Proof.
  intros H O pre o' r' post E. destruct post as [|y post _] using rev_ind.
  - apply app_inj_tail in E as [<- [= <- <-]]. auto.
  - rewrite app_comm_cons, app_assoc in E. apply app_inj_tail in E as [-> _]. eapply H; eauto.
Qed.
Lemma tg_step E ty t log g o : env_ok E -> txgx E ty t log g -> TxSpec.op_ok (tled log) o -> fits ty o = true ->
  let '(t', r) := texec E t o in r <> RAbort /\ txgx E ty t' (log ++ tv1 (o, r)) (gadd g (gh1 (o, r))).
Proof.
  intros HE (tr & a & C & R & V & LW & SH & GH) O FT. rewrite <- V, <- ledger_tvis in O. pose proof (step_ok E (ledger_of tr) t a o HE R O) as S.
  destruct (texec E t o) as [t' r]. destruct S as (b & Cb & Rb). split; [inversion Cb; discriminate|].
  exists (tr ++ [(o, r)]), b. split; [eapply calls_snoc; eauto|]. split; [rewrite ledger_snoc; exact Rb|]. split; [rewrite tvis_snoc; congruence|]. split; [apply lawful_snoc; auto|split; [apply shaped_snoc; auto|rewrite ghost_snoc; congruence]].
Qed.
(* a stream that starts with its type *)
Lemma tg_start E n t : env_ok E -> is_byte n -> write_raw tx_init [n] = Ok t -> txgx E (Some n) t [] g0.
Proof.
  intros HE B W. pose proof (step_ok E led0 tx_init a0 (ORaw [n]) HE rel0) as S. cbn [texec] in S. rewrite W in S.
  destruct S as (b & Cb & Rb).
  { cbn. split; [discriminate|]. split; [repeat constructor; apply B|]. reflexivity. }
  exists [(ORaw [n], RNone)], b. split; [econstructor; [exact Cb|constructor]|]. split; [exact Rb|]. split; [reflexivity|]. split.
  - intros pre o r post H. destruct pre as [|x pre]; [|destruct pre; discriminate]. injection H as <- <- <-. cbn. split; [discriminate|]. split; [repeat constructor; apply B|]. reflexivity.
  - split; [exists []; split; [reflexivity|constructor]|reflexivity].
Qed.
(* the encoder's instructions *)
Lemma emits_instr E a es b : enc_ok E -> emits E a es b -> Forall instr_ok es.
Proof.
  intros [_ HE]. induction 1; auto. apply Forall_app. split; auto. destruct H; auto. constructor; auto. eapply HE; eauto.
Qed.
Definition no_headers (l : list TxModel.frame) : Prop := forall nva, ~ In (TxModel.FHeaders nva) l.
Lemma emits_no_headers E a es b : emits E a es b -> no_headers (a_pend a) -> es = [] /\ no_headers (a_pend b).
Proof.
  induction 1; auto. intros N. assert (e = [] /\ no_headers (a_pend b)) as [-> N1].
  { destruct H; cbn [a_pend] in *; try (split; [reflexivity|]; intros n I; apply (N n); cbn; auto; fail).
    - elim (N nva). cbn; auto.
    - split; [reflexivity|]. destruct eof; auto. intros n I. apply (N n). cbn; auto. }
  destruct (IHemits N1) as [-> N2]. auto.
Qed.
Lemma fits_plain ty o : (ty = None \/ ty = Some 0 \/ ty = Some 2 \/ ty = Some 3) -> raw o = false -> (forall frs fin, o <> OSubmit frs fin) -> fits ty o = true.
Proof. intros [->|[->|[->| ->]]] R N; destruct o; cbn in *; auto; try discriminate; exfalso; eapply N; eauto. Qed.
Definition known_ty (ty : option Z) : Prop := ty = None \/ ty = Some 0 \/ ty = Some 2 \/ ty = Some 3.
Lemma tg_fill E ty t log g : known_ty ty -> enc_ok E -> txgx E ty t log g ->
  match tx_fill E t with
  | Ok (t', es) => txgx E ty t' log (gadd g ([], es)) /\ Forall instr_ok es /\ (no_headers (t_frq t) -> es = [] /\ no_headers (t_frq t'))
  | Err _ => True
  | Abort => False
  end.
Proof.
  intros KT HE G. pose proof (tg_step E ty t log g OFill (proj1 HE) G I ltac:(apply fits_plain; [exact KT|reflexivity|discriminate])) as S. cbn [texec] in S. pose proof G as (tr & a & C & R & V & LW & SH & GH).
  pose proof (fill_step E (ledger_of tr) t a (proj1 HE) R) as F.
  destruct (tx_fill E t) as [[t' es]|e|]; [|exact I|tauto]. destruct S as [_ S]. cbn [tv1 gh1] in S. rewrite app_nil_r in S. split; auto.
  destruct F as (b & F & Rb & _). destruct (a_blk a) eqn:B.
  - destruct F as [-> ->]. split; [constructor|]. intros N. split; auto. rewrite (ti_frq _ _ _ (r_tied _ _ _ Rb)), <- (ti_frq _ _ _ (r_tied _ _ _ R)). auto.
  - split; [eapply emits_instr; eauto|]. intros N. rewrite (ti_frq _ _ _ (r_tied _ _ _ R)) in N. rewrite (ti_frq _ _ _ (r_tied _ _ _ Rb)). eapply emits_no_headers; eauto.
Qed.
Lemma tg_ebuf E t log g e : env_ok E -> txgx E (Some 2) t log g -> instr_ok e ->
  match write_ebuf t e with Ok t' => txgx E (Some 2) t' log (gadd g ([e], [])) /\ t_frq t' = t_frq t | Err _ => True | Abort => False end.
Proof.
  intros HE G O. pose proof (tg_step E (Some 2) t log g (OInstr e) HE G O eq_refl) as S. cbn [texec] in S. 
  destruct (write_ebuf t e) as [t'|x|] eqn:W; [|exact I|tauto]. destruct S as [_ S]. cbn [tv1 gh1] in S. rewrite app_nil_r in S. split; auto.
  clear - W. unfold write_ebuf in W. assert (forall s x s', outq_add s x = Ok s' -> t_frq s' = t_frq s) as A.
  { unfold outq_add. intros s x s'. destruct (max_varint - t_off s <? b_len x); [discriminate|]. cbv zeta. destruct (rev _) as [|d f]; [intros [= <-]; reflexivity|]. destruct (same_block d x); intros [= <-]; reflexivity. }
  destruct (_ <? _); [eapply A; eauto|]. destruct (negb _); [|congruence]. unfold write_raw, shared_add in W.
  destruct (chunk_write _ e) as [[[[s1 i] a] b]| |] eqn:CW; cbn [obind] in W; try discriminate. apply A in W. rewrite W. unfold chunk_write in CW.
  destruct (rev (t_chunks (ensure_chunk t (zlen e)))); [discriminate CW|]. destruct (_ <? _); [discriminate|]. apply ok_inj in CW. apply (f_equal (fun x => t_frq (fst (fst (fst x))))) in CW. cbn [fst] in CW. rewrite <- CW. cbn [set_chunks t_frq].
  unfold ensure_chunk. destruct (rev (t_chunks t)); [reflexivity|]. destruct (_ <=? _); reflexivity.
Qed.
Lemma tg_raw E t log g l : env_ok E -> txgx E (Some 3) t log g -> l <> [] -> bytes l -> zlen l < 2 ^ 62 ->
  match write_raw t l with Ok t' => txgx E (Some 3) t' log g | Err _ => True | Abort => False end.
Proof.
  intros HE G N B Z. pose proof (tg_step E (Some 3) t log g (ORaw l) HE G ltac:(cbn; auto) eq_refl) as S. cbn [texec] in S.
  destruct (write_raw t l) as [t'|e|]; [|exact I|tauto]. destruct S as [_ S]. cbn [tv1 gh1] in S. rewrite app_nil_r, gadd_0 in S. auto.
Qed.
(* an offer that is made without filling the queue first *)
Lemma tg_offer E ty t log g n : known_ty ty -> env_ok E -> txgx E ty t log g -> n <> O ->
  match writev t n with Ok (vs, fin) => vs <> [] \/ fin = true -> txgx E ty t (log ++ [TOffer vs fin]) g | Err _ => True | Abort => False end.
Proof.
  intros KT HE (tr & a & C & R & V & LW & SH & GH) N. set (t1 := set_rdblk t true). destruct a as [p w en bl k j]. set (a1 := mk_a p w en true k j).
  assert (rel (ledger_of tr) t1 a1) as R1.
  { destruct R as [[T1 T2 T3 T4 T5 T6 T7] A H]. constructor; auto. constructor; auto. apply core_set_rdblk. exact T1. }
  pose proof (step_ok E (ledger_of tr) t1 a1 (OWrite n) HE R1 N) as S. cbn [texec] in S.
  assert (tx_write E t1 n = let! (vs, fin) := writev t n in Ok (t1, [], vs, fin)) as TW by reflexivity. rewrite TW in S. clear TW. destruct (writev t n) as [[vs fin]|e|]; cbn [obind] in S; [|exact I|].
  - intros Q. cbv beta iota zeta in S. destruct S as (b & Cb & Rb). inversion Cb; subst. cbn [a_blk a1] in H3. destruct H3 as [_ ->]. cbn [a_wire a_pend a_end a_blk a1] in *.
    exists (tr ++ [(OWrite n, ROffer vs fin [])]), (mk_a p w en bl k j). split; [eapply calls_snoc; [exact C|]|].
    + eapply c_write with (more := more); auto. * cbn [a_blk]. destruct bl; [auto|constructor].
      * intros ->. left. destruct Q as [Q|Q]; [congruence|]. apply H10 in Q. tauto.
    + split; [rewrite ledger_snoc; cbn [fst snd led_step]|split; [apply tvis_snoc|split; [apply lawful_snoc; auto|split; [apply shaped_snoc; [exact SH|apply fits_plain; [exact KT|reflexivity|discriminate]]|rewrite ghost_snoc; cbn [gh1]; apply gadd_0]]]]. destruct R as [T A H], Rb as [Tb Ab Hb]. cbn [led_step] in *. constructor; auto.
  - cbv beta iota zeta in S. destruct S as (b & Cb & _). inversion Cb.
Qed.
