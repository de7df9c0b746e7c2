(* A computable form of SendSpec.sending_ok, for the examples, and a client that sends *)
From Verif Require Import Base BaseLemmas ConvModel ConvSpec QpackTabModel QpackDecModel ControlModel TxModel TxSpec ConnModel ConnDecomp ConnHist ConnDemo SendSpec.
Open Scope Z_scope.

Definition byteb (b : Z) : bool := (0 <=? b) && (b <=? 255).
Definition nonempty {A} (l : list A) : bool := match l with [] => false | _ => true end.
Definition call_okb (K : kenv) (pre : list kcall) (c : conn) (o : cop) : bool :=
  let L i := tled (slog K i pre) in let live i (b : bool) := if nonempty (life i pre) then b else true in
  match o with
  | ORequest _ nva _ => nonempty nva
  | OInfo i nva | OResponse i nva _ | OTrailers i nva => nonempty nva && client_bidi i
  | OClientPriority _ data => forallb byteb data && (zlen data <? 2 ^ 61)
  | OAddWrite i n => live i ((0 <=? n) && (l_sent (L i) + n <=? l_hi (L i)))
  | ConnModel.OAddAck i n => live i ((0 <=? n) && (l_acked (L i) + n <=? l_sent (L i)))
  | OUpdateAck i off => live i ((0 <=? off) && (off <=? l_sent (L i)))
  | OWritev _ => (get_decoder_streamlen (k_dec c) <? 2 ^ 62) && (next_absidx (d_ctx (k_dec c)) <? 2 ^ 62)
  | _ => true
  end.
Lemma call_okb_ok K pre c o : call_okb K pre c o = true -> call_ok K pre c o.
Proof.
  assert (forall A (l : list A), nonempty l = true -> l <> []) as NE by (intros A [|]; [discriminate|congruence]).
  destruct o; cbn [call_okb call_ok]; auto; rewrite ?andb_true_iff.
  - intros [A B]. split; lia.
  - intros H NL. destruct (life id pre); [congruence|]. cbn [nonempty] in H. apply andb_true_iff in H as [A B]. lia.
  - intros H NL. destruct (life id pre); [congruence|]. cbn [nonempty] in H. apply andb_true_iff in H as [A B]. lia.
  - intros H NL. destruct (life id pre); [congruence|]. cbn [nonempty] in H. apply andb_true_iff in H as [A B]. lia.
  - intros [A B]; auto.
  - intros [A B]; auto.
  - intros [A B]; auto.
  - intros [A B]. split; [|lia]. rewrite forallb_forall in A. apply Forall_forall. intros x I. specialize (A x I). unfold byteb in A. unfold is_byte. lia.
Qed.
Fixpoint sendb (K : kenv) (pre h : list kcall) (c : conn) : bool :=
  match h with [] => true | x :: h' => call_okb K pre c (ConnHist.c_op x) && sendb K (pre ++ [x]) h' (c_post x) end.
Lemma sendb_ok K h : sendb K [] h (conn_init K) = true -> sending_ok K h.
Proof.
  assert (forall h pre c, sendb K pre h c = true -> after K pre = c -> forall a x b, h = a ++ x :: b -> call_ok K (pre ++ a) (after K (pre ++ a)) (ConnHist.c_op x)) as GO.
  { induction h0 as [|y h0 IH]; intros pre c H A a x b E; [destruct a; discriminate|]. cbn [sendb] in H. apply andb_true_iff in H as [H1 H2]. destruct a as [|z a].
    - injection E as <- <-. rewrite app_nil_r, A. apply call_okb_ok. exact H1.
    - injection E as <- ->. replace (pre ++ y :: a) with ((pre ++ [y]) ++ a) by (rewrite <- app_assoc; reflexivity). eapply IH; eauto. unfold after. rewrite rev_app_distr. reflexivity. }
  intros H pre x post E. exact (GO h [] (conn_init K) H eq_refl pre x post E).
Qed.
(* the encoder also gives instructions; the reader gives five bytes, has nothing for now, then gives two and ends *)
Definition send_tx : Z -> txenv := fun _ => mk_te (fun _ _ => Ok ([0; 0], [209; 215], [65; 97; 1; 98]))
  (fun j => match j with O => RdData [[10; 11]; []; [12; 13; 14]] false false | 1%nat => RdErr ERR_WOULDBLOCK | 2%nat => RdData [[20; 21]] true false | _ => RdErr 0 end).
Definition send_k (server : bool) : kenv := mk_ke server demo_set demo_sf send_tx (fun _ src => Ok (zlen src)).
Lemma send_fine server : env_fine (send_k server).
Proof.
  split; [|repeat split; cbn; unfold max_varint; lia]. intros id. split; [split; [discriminate|split]|].
  - intros k nva p r e _ H. injection H as <- <- <-. repeat apply conj; try discriminate; try reflexivity; repeat (apply Forall_cons; [unfold is_byte; lia|]); apply Forall_nil.
  - intros [|[|[|j]]] vecs eof ne H; inversion H; subst; (split; [repeat (constructor; try (unfold is_byte; lia))|left; discriminate]).
  - intros k nva p r e H. injection H as <- <- <-. split; [repeat (constructor; try (unfold is_byte; lia))|reflexivity].
Qed.
Definition nva1 : list ConvModel.nv := [mknv [97] [98] 0].
(* a request with a body in two pieces, a PRIORITY_UPDATE, partial writes and acknowledgements, a shutdown *)
Definition ops_send : list cop :=
  [OBindControl 2; OBindQpack 6 10; ORequest 0 nva1 true; OClientPriority 0 [117; 61; 49]; OWritev 4%nat; OAddWrite 2 17; OWritev 4%nat; OAddWrite 2 9; OWritev 4%nat; OAddWrite 10 1;
   OWritev 4%nat; OAddWrite 6 1; OWritev 4%nat; OAddWrite 6 4; OWritev 1%nat; OAddWrite 0 4; OWritev 8%nat; OAddWrite 0 6; OUpdateAck 0 9; OWritev 8%nat; OAddWrite 0 3; OResume 0; OWritev 8%nat; OAddWrite 0 4; ConnModel.OAddAck 0 2; OShutdown; OWritev 8%nat; OAddWrite 2 3; OUpdateAck 0 17].
