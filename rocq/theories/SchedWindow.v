(* The virtual times in one queue lie in a window in which the modular comparison is an order *)
From Verif Require Import Base BaseLemmas HttpModel PqModel PqProofs PqWeak SchedModel.
Open Scope Z_scope.

Definition W64 : Z := 2 ^ 64.
Lemma u64_small x : 0 <= x < 2 ^ 64 -> u64 x = x. Proof. intros. apply Z.mod_small; auto. Qed.
Lemma u64_range x : 0 <= u64 x < 2 ^ 64. Proof. apply Z.mod_pos_bound; reflexivity. Qed.
Lemma u64_add x k : u64 (x + k * 2 ^ 64) = u64 x. Proof. apply Z.mod_add; discriminate. Qed.
Lemma u64_case x y : 0 <= x < 2 ^ 64 -> 0 <= y < 2 ^ 64 -> u64 (x - y) = if y <=? x then x - y else x - y + 2 ^ 64.
Proof.
  intros. destruct (Z.leb_spec y x); [apply u64_small; lia|]. rewrite <- (u64_add (x - y) 1), u64_small; lia.
Qed.
Lemma u64_case_add x y : 0 <= x < 2 ^ 64 -> 0 <= y < 2 ^ 64 -> u64 (x + y) = if x + y <? 2 ^ 64 then x + y else x + y - 2 ^ 64.
Proof.
  intros. destruct (Z.ltb_spec (x + y) (2 ^ 64)); [apply u64_small; lia|]. rewrite <- (u64_add (x + y) (-1)), u64_small; lia.
Qed.
Definition clt (cyc : Z -> Z) (x y : Z) : bool := if cyc x =? cyc y then x <? y else u64 (cyc y - cyc x) <=? MAX_CYCLE_GAP.
Definition off (cyc : Z -> Z) (b x : Z) : Z := u64 (cyc x - b).
Definition ranged (cyc : Z -> Z) : Prop := forall x, 0 <= cyc x < 2 ^ 64.
Definition inwin (cyc : Z -> Z) (b x : Z) : Prop := off cyc b x <= MAX_CYCLE_GAP.
Lemma gap_val : MAX_CYCLE_GAP = 16777216. Proof. reflexivity. Qed.
Ltac win := repeat match goal with
  | H : context [u64 (?x - ?y)] |- _ => rewrite (u64_case x y) in H by (auto; lia)
  | |- context [u64 (?x - ?y)] => rewrite (u64_case x y) by (auto; lia)
  end.
Lemma clt_win cyc b x y : ranged cyc -> 0 <= b < 2 ^ 64 -> inwin cyc b x -> inwin cyc b y ->
  clt cyc x y = (off cyc b x <? off cyc b y) || ((off cyc b x =? off cyc b y) && (x <? y)).
Proof.
  intros R Hb Hx Hy. pose proof (R x) as Rx; pose proof (R y) as Ry. unfold inwin, off, clt in *. rewrite gap_val in *.
  revert Rx Ry Hx Hy. generalize (cyc x) (cyc y). intros cx cy Rx Ry. win.
  destruct (Z.leb_spec b cx); destruct (Z.leb_spec b cy); intros Hx Hy; destruct (Z.eqb_spec cx cy); win; destruct (Z.leb_spec cx cy);
  repeat match goal with |- context [?a <? ?b] => destruct (Z.ltb_spec a b) | |- context [?a <=? ?b] => destruct (Z.leb_spec a b) | |- context [?a =? ?b] => destruct (Z.eqb_spec a b) end; cbn; try reflexivity; exfalso; lia.
Qed.
Lemma off_range cyc b x : 0 <= off cyc b x < 2 ^ 64. Proof. apply u64_range. Qed.
Section ORD.
Variables (cyc : Z -> Z) (b : Z).
Hypothesis R : ranged cyc.
Hypothesis Hb : 0 <= b < 2 ^ 64.
Lemma ord_asym x y : inwin cyc b x -> inwin cyc b y -> clt cyc x y = true -> clt cyc y x = false.
Proof. intros. rewrite (clt_win cyc b) in * by auto. revert H1. generalize (off cyc b x) (off cyc b y). intros p q. lia. Qed.
Lemma ord_trans x y z : inwin cyc b x -> inwin cyc b y -> inwin cyc b z -> le (clt cyc) x y -> le (clt cyc) y z -> le (clt cyc) x z.
Proof. unfold le. intros. rewrite (clt_win cyc b) in * by auto. revert H2 H3. generalize (off cyc b x) (off cyc b y) (off cyc b z). intros p q r. lia. Qed.
End ORD.

(* [d]: bytes written or offered but not yet accounted for in the virtual time; B bounds all of them *)
Definition qok (B : Z) (cyc : Z -> Z) (inc : Z -> bool) (d : Z -> Z) (p : pq) : Prop :=
  exists b, 0 <= b < 2 ^ 64 /\ heap (clt cyc) p /\ (forall x, has p x -> 800 * off cyc b x + d x <= B) /\
    (forall x, has p x -> inc x = false -> off cyc b x = 0) /\ (pq_len p <> O -> exists x, has p x /\ off cyc b x = 0).
Lemma heap_ext less less' p : (forall x y, has p x -> has p y -> less x y = less' x y) -> heap less p -> heap less' p.
Proof.
  intros HL H j Hj. unfold le. pose proof (par_lt j ltac:(lia)). rewrite <- HL; [apply H; auto| |]; eexists; (split; [|reflexivity]); lia.
Qed.
Lemma clt_ext cyc cyc' x y : cyc x = cyc' x -> cyc y = cyc' y -> clt cyc x y = clt cyc' x y.
Proof. intros E1 E2. unfold clt. rewrite E1, E2. reflexivity. Qed.
Lemma qok_ext B cyc inc d cyc' inc' d' p : qok B cyc inc d p ->
  (forall x, has p x -> cyc' x = cyc x /\ inc' x = inc x /\ d' x <= d x) -> qok B cyc' inc' d' p.
Proof.
  intros (b & Hb & H1 & H2 & H3 & H4) HE. exists b. split; [auto|]. split; [eapply heap_ext; [|exact H1]; intros; apply clt_ext; symmetry; apply HE; auto|].
  split; [|split].
  - intros x Hx. destruct (HE x Hx) as (E1 & E2 & E3). specialize (H2 x Hx). unfold off in *. rewrite E1. lia.
  - intros x Hx. destruct (HE x Hx) as (E1 & E2 & E3). rewrite E2. unfold off. rewrite E1. apply H3; auto.
  - intros L. destruct (H4 L) as (x & Hx & Q). exists x. split; auto. destruct (HE x Hx) as (E1 & _). unfold off. rewrite E1. exact Q.
Qed.
Section Q.
Variables (B : Z) (cyc : Z -> Z) (inc : Z -> bool) (d : Z -> Z).
Hypothesis R : ranged cyc.
Hypothesis HB : B <= 800 * MAX_CYCLE_GAP.
Hypothesis Hd : forall x, 0 <= d x.
Lemma qok_win p b : (forall x, has p x -> 800 * off cyc b x + d x <= B) -> forall x, has p x -> inwin cyc b x.
Proof. intros H x Hx. unfold inwin. specialize (H x Hx). specialize (Hd x). lia. Qed.
Lemma qok_inv p b : exact p -> heap (clt cyc) p -> (forall x, has p x -> 800 * off cyc b x + d x <= B) -> pq_inv (clt cyc) (inwin cyc b) p.
Proof.
  intros E H1 H2. split; [|split; auto]. intros i Hi. apply (qok_win p b H2). exists i; auto.
Qed.
(* the choice in a queue: first by virtual time, then by identifier *)
Lemma qok_top p : exact p -> qok B cyc inc d p -> pq_len p <> O ->
  exists t b, pq_top p = Ok t /\ has p t /\ 0 <= b < 2 ^ 64 /\ off cyc b t = 0 /\
    (forall y, has p y -> 800 * off cyc b y + d y <= B /\ (inc y = false -> off cyc b y = 0) /\ (off cyc b y = 0 -> t <= y)).
Proof.
  intros E (b & Hb & H1 & H2 & H3 & H4) L.
  destruct (top_ok (clt cyc) (inwin cyc b) (ord_asym cyc b R Hb) (ord_trans cyc b R Hb) p (qok_inv p b E H1 H2) L) as (t & T1 & T2 & T3).
  exists t, b. split; [auto|split; [auto|split; [auto|]]]. destruct (H4 L) as (x & Hx & Q).
  pose proof (T3 x Hx) as Lx. rewrite (clt_win cyc b) in Lx by (auto; apply (qok_win p b H2); auto). rewrite Q in Lx.
  pose proof (off_range cyc b t) as Rt. assert (off cyc b t = 0) as Qt by lia. split; [exact Qt|].
  intros y Hy. split; [auto|split; [auto|]]. intros Qy. pose proof (T3 y Hy) as Ly. rewrite (clt_win cyc b) in Ly by (auto; apply (qok_win p b H2); auto). rewrite Qt, Qy in Ly. lia.
Qed.
(* moving the base to the smallest virtual time left *)
Lemma rebase p b : exact p -> 0 <= b < 2 ^ 64 -> heap (clt cyc) p -> (forall x, has p x -> 800 * off cyc b x + d x <= B) ->
  (forall x, has p x -> inc x = false -> off cyc b x = 0) -> qok B cyc inc d p.
Proof.
  intros E Hb H1 H2 H3. destruct (Nat.eq_dec (pq_len p) 0) as [L|L].
  { exists b. split; [auto|]. split; [auto|]. split; [auto|]. split; [auto|]. intros; congruence. }
  destruct (top_ok (clt cyc) (inwin cyc b) (ord_asym cyc b R Hb) (ord_trans cyc b R Hb) p (qok_inv p b E H1 H2) L) as (t & T1 & T2 & T3).
  assert (forall y, has p y -> off cyc (cyc t) y = off cyc b y - off cyc b t /\ off cyc b t <= off cyc b y) as K.
  { intros y Hy. pose proof (T3 y Hy) as Ly. rewrite (clt_win cyc b) in Ly by (auto; apply (qok_win p b H2); auto).
    pose proof (qok_win p b H2 y Hy) as Wy. unfold inwin in Wy. rewrite gap_val in *. 
    assert (off cyc b t <= off cyc b y) as Lo by lia. split; [|exact Lo]. clear Ly. unfold off in *.
    pose proof (R t) as Rt; pose proof (R y) as Ry. revert Lo Wy Rt Ry. generalize (cyc t) (cyc y). intros a c Lo Wy Rt Ry. win.
    destruct (Z.leb_spec b a); destruct (Z.leb_spec b c); destruct (Z.leb_spec a c); lia. }
  exists (cyc t). split; [apply R|]. split; [auto|]. split; [|split].
  - intros y Hy. destruct (K y Hy) as [K1 K2]. rewrite K1. specialize (H2 y Hy). pose proof (off_range cyc b t). lia.
  - intros y Hy Iy. destruct (K y Hy) as [K1 K2]. rewrite K1. pose proof (H3 y Hy Iy). pose proof (off_range cyc b t). lia.
  - intros _. exists t. split; [auto|]. destruct (K t T2) as [K1 _]. rewrite K1. lia.
Qed.
Lemma qok_remove p x p' : exact p -> qok B cyc inc d p -> has p x -> pq_remove (clt cyc) p x = Ok p' -> qok B cyc inc d p'.
Proof.
  intros E (b & Hb & H1 & H2 & H3 & H4) Hx HR.
  destruct (remove_ok (clt cyc) (inwin cyc b) (ord_asym cyc b R Hb) (ord_trans cyc b R Hb) p x (qok_inv p b E H1 H2) Hx) as (p2 & HR2 & (A & E2 & G1) & G2 & G3 & _).
  rewrite HR in HR2. injection HR2 as <-. apply (rebase p' b); auto; intros y Hy; apply G3 in Hy as [_ Hy]; auto.
Qed.
Lemma qok_push p x c dl : exact p -> qok B cyc inc d p -> ~ has p x ->
  (if Nat.eqb (pq_len p) 0 then True else exists t, pq_top p = Ok t /\ c = cyc t) ->
  0 <= dl -> cyc x = u64 (c + dl) -> (inc x = false -> dl = 0) -> 800 * dl + d x <= B -> qok B cyc inc d (pq_push (clt cyc) p x).
Proof.
  intros E Q N Hc Hdl Cx Ix Dx. 
  destruct (Nat.eqb_spec (pq_len p) 0) as [L|L].
  - assert (0 <= cyc x < 2 ^ 64) as Hb by apply R. set (b := cyc x) in *.
    assert (off cyc b x = 0) as Q0 by (unfold off, b; rewrite Z.sub_diag; reflexivity).
    assert (forall y, ~ has p y) as Em by (intros y (i & Hi & _); lia).
    assert (pq_inv (clt cyc) (inwin cyc b) p) as I by (split; [|split]; [intros i Hi; lia|auto|intros i Hi; lia]).
    destruct (push_ok (clt cyc) (inwin cyc b) (ord_asym cyc b R Hb) (ord_trans cyc b R Hb) p x I N) as ((A & E2 & G1) & G2 & G3 & _); [unfold inwin; rewrite Q0, gap_val; lia|].
    exists b. split; [auto|]. split; [exact G1|].
    assert (forall y, has (pq_push (clt cyc) p x) y -> y = x) as Only by (intros y Hy; apply G3 in Hy as [Hy|Hy]; [auto|exfalso; eapply Em; eauto]).
    split; [|split].
    + intros y Hy. rewrite (Only y Hy), Q0. lia.
    + intros y Hy _. rewrite (Only y Hy). exact Q0.
    + intros _. exists x. split; [apply G3; auto|exact Q0].
  - destruct Hc as (t & T1 & ->). destruct (qok_top p E Q L) as (t' & b & T1' & T2 & Hb & T3 & T4). rewrite T1 in T1'. injection T1' as <-.
    destruct Q as (b0 & Hb0 & H1 & _).
    assert (off cyc b x = dl) as Ox.
    { unfold off in *. rewrite Cx. pose proof (R t) as Rt. revert T3 Rt. generalize (cyc t). intros a T3 Ra. rewrite gap_val in HB. 
      pose proof (Hd x). rewrite (u64_case_add a dl) by lia. destruct (Z.ltb_spec (a + dl) (2 ^ 64)); win; destruct (Z.leb_spec b a); try lia;
      match goal with |- context [b <=? ?v] => destruct (Z.leb_spec b v) end; lia. }
    assert (forall y, has p y -> 800 * off cyc b y + d y <= B) as H2 by (intros y Hy; apply T4; auto).
    destruct (push_ok (clt cyc) (inwin cyc b) (ord_asym cyc b R Hb) (ord_trans cyc b R Hb) p x (qok_inv p b E H1 H2) N) as ((A & E2 & G1) & G2 & G3 & _).
    { unfold inwin. rewrite Ox. pose proof (Hd x). lia. }
    exists b. split; [auto|]. split; [exact G1|]. split; [|split].
    + intros y Hy. apply G3 in Hy as [->|Hy]; [rewrite Ox; lia|auto].
    + intros y Hy Iy. apply G3 in Hy as [->|Hy]; [rewrite Ox; auto|apply T4; auto].
    + intros _. exists t. split; [apply G3; auto|exact T3].
Qed.
(* how far i is ahead of j *)
Definition lead (cy : Z -> Z) (i j : Z) : Z := let m := u64 (cy i - cy j) in if m <=? MAX_CYCLE_GAP then m else m - 2 ^ 64.
Lemma qok_lead p i j : qok B cyc inc d p -> has p i -> has p j -> -B <= 800 * lead cyc i j <= B /\
  exists b, lead cyc i j = off cyc b i - off cyc b j.
Proof.
  intros (b & Hb & H1 & H2 & _) Hi Hj. pose proof (H2 i Hi) as Li. pose proof (H2 j Hj) as Lj. pose proof (Hd i); pose proof (Hd j).
  assert (lead cyc i j = off cyc b i - off cyc b j) as Q.
  { unfold lead, off in *. rewrite gap_val in *. pose proof (R i) as Ri; pose proof (R j) as Rj. revert Li Lj Ri Rj. generalize (cyc i) (cyc j). intros a c Li Lj Ra Rc. win.
    destruct (Z.leb_spec c a); destruct (Z.leb_spec b a); destruct (Z.leb_spec b c); match goal with |- context [?v <=? 16777216] => destruct (Z.leb_spec v 16777216) end; lia. }
  split; [|eauto]. rewrite Q. pose proof (off_range cyc b i); pose proof (off_range cyc b j). lia.
Qed.
End Q.
