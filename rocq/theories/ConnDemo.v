(* Concrete connections used in the examples of the Props_Conn files *)
From Verif Require Import Base BaseLemmas ConvModel QpackTabModel QpackDecModel HttpModel BidiModel BidiHist ControlModel GapModel PqModel TxModel SchedModel ConnModel ConnDecomp ConnHist.
Open Scope Z_scope.

(* the encoder answers every header section with the same four bytes, readers give three bytes and end *)
Definition demo_tx : Z -> txenv := fun _ => mk_te (fun _ _ => Ok ([0; 0], [209; 215], [])) (fun k => if Nat.eqb k 0 then RdData [[1; 2; 3]] true false else RdErr 0).
(* "u=1" is the only structured field there is *)
Definition demo_sf : sfparser := fun v => if list_eq_dec Z.eq_dec v [117; 61; 49] then ([([117], SfInt 1)], true) else ([], false).
Definition demo_set : settings := mk_set max_varint 256 4 false false.
Definition demo (server : bool) : kenv := mk_ke server demo_set demo_sf demo_tx (fun _ src => Ok (zlen src)).
(* HEADERS: :method GET, :scheme https, :path /, :authority a *)
Definition demo_req : list Z := [1; 8; 0; 0; 209; 215; 193; 80; 1; 97].
(* control stream: type, SETTINGS (empty) *)
Definition demo_ctl : list Z := [0; 4; 0].
(* PRIORITY_UPDATE (0xf0700, as the 4 byte varint 0x800f0700) of stream [id] with value "u=1" *)
Definition demo_pu (id : Z) : list Z := [128; 15; 7; 0; 4; id; 117; 61; 49].
Definition demo_run (server : bool) (ops : list cop) : option (list kcall * conn) := trail (demo server) (conn_init (demo server)) ops.
Lemma demo_history server ops h c : Forall ConnDecomp.op_ok ops -> demo_run server ops = Some (h, c) -> history (demo server) h c.
Proof. apply trail_init. Qed.
(* computable form of op_ok *)
Definition op_okb (o : cop) : bool := match o with ORead _ src _ => forallb (fun b => (0 <=? b) && (b <=? 255)) src | _ => true end.
Lemma op_okb_ok o : op_okb o = true -> ConnDecomp.op_ok o.
Proof.
  destruct o; cbn; auto. intros H. unfold bytes. rewrite forallb_forall in H. apply Forall_forall. intros x I. specialize (H x I). unfold is_byte. lia.
Qed.
Lemma demo_hist server ops h c : forallb op_okb ops = true -> demo_run server ops = Some (h, c) -> history (demo server) h c.
Proof. intros H. apply demo_history. rewrite forallb_forall in H. apply Forall_forall. intros o I. apply op_okb_ok. auto. Qed.
Definition demo_end (server : bool) (ops : list cop) : conn := match demo_run server ops with Some (_, c) => c | None => conn_init (demo server) end.
Definition demo_h (server : bool) (ops : list cop) : list kcall := match demo_run server ops with Some (h, _) => h | None => [] end.
Lemma demo_ok server ops : forallb op_okb ops = true -> (match demo_run server ops with Some _ => true | None => false end) = true -> history (demo server) (demo_h server ops) (demo_end server ops).
Proof. intros H R. unfold demo_h, demo_end. destruct (demo_run server ops) as [[h c]|] eqn:E; [|discriminate]. eapply demo_hist; eauto. Qed.

(* the same with other oracles *)
Definition run_end (K : kenv) (ops : list cop) : conn := match trail K (conn_init K) ops with Some (_, c) => c | None => conn_init K end.
Definition run_h (K : kenv) (ops : list cop) : list kcall := match trail K (conn_init K) ops with Some (h, _) => h | None => [] end.
Lemma run_ok K ops : forallb op_okb ops = true -> (match trail K (conn_init K) ops with Some _ => true | None => false end) = true -> history K (run_h K ops) (run_end K ops).
Proof.
  intros H R. unfold run_h, run_end. destruct (trail K (conn_init K) ops) as [[h c]|] eqn:E; [|discriminate]. apply (trail_init K ops h c); [|exact E].
  rewrite forallb_forall in H. apply Forall_forall. intros o I. apply op_okb_ok. auto.
Qed.
