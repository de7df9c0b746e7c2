(* Proofs about HttpModel.v against HttpSpec.v *)
From Coq Require Import String.
From Verif Require Import Base BaseLemmas Tables QpackTabModel QpackTabSpec QpackTabProofs ConvProofs HttpModel HttpSpec.

(* ---------------- characters ---------------- *)
Definition memb (c : Z) (l : list Z) : bool := existsb (Z.eqb c) l.
Lemma memb_spec c l : memb c l = true <-> In c l.
Proof.
  unfold memb. rewrite existsb_exists. split; [intros (x & I & E); apply Z.eqb_eq in E; subst; auto|].
  intros I; exists c; rewrite Z.eqb_refl; auto.
Qed.
Definition tcharb (c : Z) : bool :=
  memb c (bs "!#$%&'*+-.^_`|~") || ((48 <=? c) && (c <=? 57)) || is_alpha c.
Lemma is_alpha_spec c : is_alpha c = true <-> lc_alpha c \/ uc_alpha c.
Proof. unfold is_alpha, lc_alpha, uc_alpha, between. lia. Qed.
Lemma tcharb_spec c : tcharb c = true <-> tchar c.
Proof.
  unfold tcharb, tchar. rewrite !orb_true_iff, memb_spec, is_alpha_spec. unfold digit, between.
  rewrite andb_true_iff, !Z.leb_le. tauto.
Qed.
Lemma method_char c : is_byte c -> (in_tbl valid_method_chars c = true <-> tchar c).
Proof.
  intros H. rewrite <- tcharb_spec.
  rewrite (proj1 (Bool.eqb_true_iff _ _) (byte_sweep (fun b => Bool.eqb (in_tbl valid_method_chars b) (tcharb b)) ltac:(vm_compute; reflexivity) c H)).
  tauto.
Qed.
Definition pathb (c : Z) : bool := ((33 <=? c) && (c <=? 126)) || ((128 <=? c) && (c <=? 255)).
Lemma path_chars c : is_byte c -> (in_tbl valid_path_chars c = true <-> path_char c).
Proof.
  intros H. replace (path_char c) with (path_char c) by auto. unfold path_char, between.
  rewrite (proj1 (Bool.eqb_true_iff _ _) (byte_sweep (fun b => Bool.eqb (in_tbl valid_path_chars b) (pathb b)) ltac:(vm_compute; reflexivity) c H)).
  unfold pathb. lia.
Qed.
Definition authb (c : Z) : bool :=
  is_alpha c || ((48 <=? c) && (c <=? 57)) || memb c (bs "-._~" ++ bs "!$&'()*+,;=" ++ bs ":[]%").
Lemma authority_chars c : is_byte c -> (in_tbl valid_authority_chars c = true <-> authority_char c).
Proof.
  intros H. unfold authority_char.
  rewrite (proj1 (Bool.eqb_true_iff _ _) (byte_sweep (fun b => Bool.eqb (in_tbl valid_authority_chars b) (authb b)) ltac:(vm_compute; reflexivity) c H)).
  unfold authb. rewrite !orb_true_iff, memb_spec, is_alpha_spec. unfold digit, between.
  rewrite andb_true_iff, !Z.leb_le. tauto.
Qed.
Definition valb (c : Z) : bool := (c =? 9) || ((32 <=? c) && (c <=? 126)) || ((128 <=? c) && (c <=? 255)).
Lemma value_chars c : is_byte c -> (in_tbl valid_hd_value_chars c = true <-> c = 9 \/ between 32 c 126 \/ between 128 c 255).
Proof.
  intros H. unfold between.
  rewrite (proj1 (Bool.eqb_true_iff _ _) (byte_sweep (fun b => Bool.eqb (in_tbl valid_hd_value_chars b) (valb b)) ltac:(vm_compute; reflexivity) c H)).
  unfold valb. lia.
Qed.
Definition nameb (c : Z) : Z := if (65 <=? c) && (c <=? 90) then -1 else if tcharb c then 1 else 0.
Lemma name_chars c : is_byte c -> nth (Z.to_nat c) valid_hd_name_chars 0 = nameb c.
Proof.
  intros H. apply Z.eqb_eq.
  exact (byte_sweep (fun b => nth (Z.to_nat b) valid_hd_name_chars 0 =? nameb b) ltac:(vm_compute; reflexivity) c H).
Qed.

Lemma forallb_bytes (P : Z -> bool) (Q : Z -> Prop) l : (forall c, is_byte c -> (P c = true <-> Q c)) ->
  bytes l -> (forallb P l = true <-> Forall Q l).
Proof.
  intros H B. rewrite forallb_forall, Forall_forall. unfold bytes in B. rewrite Forall_forall in B.
  split; intros K c I; [apply H|apply H]; auto.
Qed.

Lemma check_method_spec v : bytes v -> (check_method v = true <-> v <> [] /\ Forall tchar v).
Proof.
  intros B. pose proof (forallb_bytes _ _ v method_char B) as H. unfold check_method.
  destruct v; [split; [discriminate|intros [K _]; congruence]|].
  rewrite H. split; [intros K; split; [discriminate|auto]|tauto].
Qed.
Lemma check_path_spec v : bytes v -> (check_path v = true <-> Forall path_char v).
Proof. apply forallb_bytes, path_chars. Qed.
Lemma check_authority_spec v : bytes v -> (check_authority v = true <-> Forall authority_char v).
Proof. apply forallb_bytes, authority_chars. Qed.
Lemma check_scheme_spec v : (check_scheme v = true <-> scheme_ok v).
Proof.
  unfold check_scheme, scheme_ok. destruct v as [|c t]; [split; [discriminate|intros (? & ? & K & _); discriminate]|].
  rewrite andb_true_iff, is_alpha_spec, forallb_forall.
  assert (S : forall x, is_scheme_char x = true <-> lc_alpha x \/ uc_alpha x \/ digit x \/ In x (bs "+-.")).
  { intros x. unfold is_scheme_char. rewrite !orb_true_iff, is_alpha_spec. unfold digit, between.
    rewrite andb_true_iff, !Z.leb_le, !Z.eqb_eq. cbn. intuition lia. }
  split.
  - intros [A F]. exists c, t. split; [reflexivity|]. split; [exact A|]. apply Forall_forall. intros x I. apply S; auto.
  - intros (c' & t' & E & A & F). injection E as <- <-. split; [exact A|]. rewrite Forall_forall in F. intros x I. apply S; auto.
Qed.
Lemma is_ws_spec c : is_ws c = true <-> blank c.
Proof. unfold is_ws, blank. lia. Qed.
Lemma check_value_spec v : bytes v -> (check_header_value v = true <-> value_ok v).
Proof.
  intros B. unfold check_header_value, value_ok.
  destruct v as [|c t].
  { split; auto. intros _. split; [constructor|]. split; intros x y K; [discriminate|destruct y; discriminate]. }
  rewrite andb_true_iff, negb_true_iff, orb_false_iff, (forallb_bytes _ _ _ value_chars B).
  destruct (exists_last (l := c :: t)) as (t' & z & E); [discriminate|].
  assert (L : last (c :: t) 0 = z) by (rewrite E; apply last_last). rewrite L. split.
  - intros [[W1 W2] F]. split; [exact F|]. split.
    + intros c' t0 K. injection K as <- <-. rewrite <- is_ws_spec. congruence.
    + intros c' t0 K. rewrite E in K. apply app_inj_tail in K as [_ ->]. rewrite <- is_ws_spec. congruence.
  - intros (F & H1 & H2). split; [|exact F]. split.
    + destruct (is_ws c) eqn:W; auto. apply is_ws_spec in W. destruct (H1 c t eq_refl W).
    + destruct (is_ws z) eqn:W; auto. apply is_ws_spec in W. destruct (H2 z t' E W).
Qed.
(* the name check on received regular fields *)
Lemma check_name_spec n : bytes n ->
  (check_nonempty_header_name n = 1 <-> Forall (fun c => tchar c /\ ~ uc_alpha c) n).
Proof.
  induction n as [|c n IH]; intros B; [split; auto|]. apply Forall_cons_iff in B as [Bc B].
  cbn [check_nonempty_header_name]. rewrite name_chars by auto. rewrite Forall_cons_iff, <- IH, <- tcharb_spec by auto.
  unfold nameb, uc_alpha, between.
  destruct ((65 <=? c) && (c <=? 90)) eqn:U; cbn [Z.eqb negb].
  - split; [discriminate|lia].
  - destruct (tcharb c) eqn:T; cbn; intuition (try discriminate; lia).
Qed.
Lemma check_name_range n : bytes n -> check_nonempty_header_name n = 1 \/ check_nonempty_header_name n = 0 \/ check_nonempty_header_name n = -1.
Proof.
  induction n as [|c n IH]; intros B; [auto|]. apply Forall_cons_iff in B as [Bc B].
  cbn [check_nonempty_header_name]. rewrite name_chars by auto. unfold nameb.
  destruct ((65 <=? c) && (c <=? 90)); cbn; auto. destruct (tcharb c); cbn; auto.
Qed.
(* the public function accepts upper-case letters *)
Lemma check_header_name_spec n : bytes n ->
  (check_header_name n = true <-> exists t, t <> [] /\ (n = t \/ n = 58 :: t) /\ Forall tchar t).
Proof.
  intros B. assert (NC : forall c, is_byte c -> (in_tbl valid_hd_name_chars c = true <-> tchar c)).
  { intros c H. unfold in_tbl. rewrite name_chars by auto. rewrite <- tcharb_spec. unfold nameb.
    destruct ((65 <=? c) && (c <=? 90)) eqn:U; cbn.
    - unfold tcharb, is_alpha. rewrite U. rewrite orb_true_r. tauto.
    - destruct (tcharb c); cbn; split; auto; discriminate. }
  assert (N58 : ~ tchar 58) by (rewrite <- tcharb_spec; vm_compute; discriminate).
  unfold check_header_name. destruct n as [|c t].
  { split; [discriminate|]. intros (t & N & [K|K] & _); [congruence|discriminate]. }
  pose proof (Forall_inv_tail B) as Bt.
  destruct (c =? 58) eqn:E.
  - apply Z.eqb_eq in E. subst c. destruct t as [|d t].
    { split; [discriminate|]. intros (t & N & [K|K] & F).
      - subst t. inversion F; contradiction.
      - injection K as <-. congruence. }
    rewrite (forallb_bytes _ _ _ NC Bt). split.
    + intros F. exists (d :: t). split; [discriminate|]. auto.
    + intros (t' & N & [K|K] & F); [subst t'; inversion F; contradiction|]. injection K as <-. exact F.
  - apply Z.eqb_neq in E. rewrite (forallb_bytes _ _ _ NC B). split.
    + intros F. exists (c :: t). split; [discriminate|auto].
    + intros (t' & N & [K|K] & F); [subst t'; exact F|]. congruence.
Qed.
Lemma lower_lc c : lower c = lc c.
Proof. unfold lower, lc. destruct ((65 <=? c) && (c <=? 90)); lia. Qed.
Lemma strieq_spec a v : strieq a v = true <-> same_ci a v.
Proof.
  unfold strieq, same_ci. rewrite beqb_spec. rewrite (map_ext _ _ lower_lc). split; congruence.
Qed.

(* ---------------- numbers ---------------- *)
Lemma num_snoc v c : num (v ++ [c]) = 10 * num v + (c - 48).
Proof. unfold num. rewrite fold_left_app. reflexivity. Qed.
Definition num_from (n : Z) (v : list Z) : Z := fold_left (fun a c => 10 * a + (c - 48)) v n.
Lemma num_from_ge v : forall n, 0 <= n -> Forall digit v -> n <= num_from n v.
Proof.
  induction v as [|c v IH]; intros n H F; [unfold num_from; cbn [fold_left]; lia|]. inversion F; subst. unfold digit, between in *.
  change (num_from n (c :: v)) with (num_from (10 * n + (c - 48)) v).
  specialize (IH (10 * n + (c - 48)) ltac:(lia) ltac:(auto)). lia.
Qed.
Lemma parse_loop v : forall n, 0 <= n <= max_varint ->
  (parse_uint_loop v n = -1 /\ ~ (Forall digit v /\ num_from n v <= max_varint)) \/
  (parse_uint_loop v n = num_from n v /\ Forall digit v /\ 0 <= num_from n v <= max_varint).
Proof.
  induction v as [|c v IH]; intros n H; cbn [parse_uint_loop num_from fold_left].
  - right. auto.
  - destruct ((48 <=? c) && (c <=? 57)) eqn:D.
    + assert (Dc : digit c) by (unfold digit, between; lia).
      assert (STEP : num_from n (c :: v) = num_from (10 * n + (c - 48)) v) by reflexivity.
      change (fold_left (fun a c0 : Z => 10 * a + (c0 - 48)) v (10 * n + (c - 48))) with (num_from (10 * n + (c - 48)) v).
      destruct (n >? max_varint / 10) eqn:G1.
      { left. split; [reflexivity|]. intros [F K]. inversion F; subst.
        pose proof (num_from_ge v (10 * n + (c - 48)) ltac:(unfold digit, between in *; lia) ltac:(auto)).
        unfold digit, between in *. assert (n > max_varint / 10) by lia.
        assert (max_varint / 10 = 461168601842738790) by reflexivity. unfold max_varint in *. lia. }
      destruct (n * 10 >? max_varint - (c - 48)) eqn:G2.
      { left. split; [reflexivity|]. intros [F K]. inversion F; subst.
        pose proof (num_from_ge v (10 * n + (c - 48)) ltac:(unfold digit, between in *; lia) ltac:(auto)). lia. }
      replace (n * 10 + (c - 48)) with (10 * n + (c - 48)) by lia.
      unfold digit, between in Dc.
      destruct (IH (10 * n + (c - 48)) ltac:(lia)) as [[-> N]|(-> & F & R)].
      * left. split; [reflexivity|]. intros [F K]. inversion F; subst. apply N; auto.
      * right. split; [reflexivity|]. split; [constructor; auto; unfold digit, between; lia|exact R].
    + left. split; [reflexivity|]. intros [F _]. inversion F; subst. unfold digit, between in *. lia.
Qed.
Lemma parse_uint_spec v :
  (parse_uint v = -1 /\ ~ (number v /\ num v <= max_varint)) \/
  (parse_uint v = num v /\ number v /\ 0 <= num v <= max_varint).
Proof.
  unfold parse_uint, number. destruct v as [|c v]; [left; split; auto; intros [[K _] _]; congruence|].
  destruct (parse_loop (c :: v) 0 ltac:(unfold max_varint; lia)) as [[-> N]|(-> & F & R)].
  - left. split; [reflexivity|]. intros [[_ F] K]. apply N. auto.
  - right. split; [reflexivity|]. split; [split; [discriminate|exact F]|exact R].
Qed.

(* ---------------- the kinds of field names ---------------- *)
Inductive kind := KAuthority | KMethod | KPath | KScheme | KProtocol | KStatus | KHost | KClen
  | KConn | KTe | KPriority | KEmpty | KPseudo | KOther.
Definition n_priority := bs "priority".
Definition kind_of (n : list Z) : kind :=
  if beqb n n_authority then KAuthority else if beqb n n_method then KMethod
  else if beqb n n_path then KPath else if beqb n n_scheme then KScheme
  else if beqb n n_protocol then KProtocol else if beqb n n_status then KStatus
  else if beqb n n_host then KHost else if beqb n n_clen then KClen
  else if inb n conn_specific then KConn else if beqb n n_te then KTe
  else if beqb n n_priority then KPriority
  else match n with [] => KEmpty | c :: _ => if c =? 58 then KPseudo else KOther end.
Definition kind_name (k : kind) : option (list Z) :=
  match k with
  | KAuthority => Some n_authority | KMethod => Some n_method | KPath => Some n_path
  | KScheme => Some n_scheme | KProtocol => Some n_protocol | KStatus => Some n_status
  | KHost => Some n_host | KClen => Some n_clen | KTe => Some n_te | KPriority => Some n_priority
  | _ => None
  end.
Lemma kind_of_name n m : kind_name (kind_of n) = Some m -> n = m.
Proof.
  unfold kind_of.
  repeat match goal with |- context [if beqb n ?x then _ else _] =>
    destruct (beqb n x) eqn:?; [intros K; injection K as <-; apply beqb_spec; assumption|] end.
  destruct (inb n conn_specific); [discriminate|].
  repeat match goal with |- context [if beqb n ?x then _ else _] =>
    destruct (beqb n x) eqn:?; [intros K; injection K as <-; apply beqb_spec; assumption|] end.
  destruct n as [|c n]; [discriminate|]. destruct (c =? 58); discriminate.
Qed.
Lemma kind_conn n : In n conn_specific -> kind_of n = KConn.
Proof. unfold conn_specific. cbn [map In]. intros [<-|[<-|[<-|[<-|[<-|[]]]]]]; vm_compute; reflexivity. Qed.
Lemma kind_of_conn n : kind_of n = KConn -> In n conn_specific.
Proof.
  rewrite <- inb_spec. unfold kind_of.
  repeat match goal with |- context [if beqb n ?x then _ else _] => destruct (beqb n x); [discriminate|] end.
  destruct (inb n conn_specific); auto.
  repeat match goal with |- context [if beqb n ?x then _ else _] => destruct (beqb n x); [discriminate|] end.
  destruct n as [|c n]; [discriminate|]. destruct (c =? 58); discriminate.
Qed.

Lemma tokb name n T : lookup_token n = T -> T <> -1 -> (lookup_token name =? T) = beqb name n.
Proof.
  intros E N. destruct (beqb name n) eqn:B.
  - apply beqb_spec in B. subst. apply Z.eqb_eq. reflexivity.
  - apply Z.eqb_neq. intros K. assert (name = n); [|subst; rewrite beqb_refl in B; discriminate].
    apply lookup_token_inj; congruence.
Qed.
Ltac tk := intros; apply tokb; [vm_compute; reflexivity|vm_compute; discriminate].
Lemma tok_authority n : (lookup_token n =? TOKEN__AUTHORITY) = beqb n n_authority. Proof. tk. Qed.
Lemma tok_method n : (lookup_token n =? TOKEN__METHOD) = beqb n n_method. Proof. tk. Qed.
Lemma tok_path n : (lookup_token n =? TOKEN__PATH) = beqb n n_path. Proof. tk. Qed.
Lemma tok_scheme n : (lookup_token n =? TOKEN__SCHEME) = beqb n n_scheme. Proof. tk. Qed.
Lemma tok_protocol n : (lookup_token n =? TOKEN__PROTOCOL) = beqb n n_protocol. Proof. tk. Qed.
Lemma tok_status n : (lookup_token n =? TOKEN__STATUS) = beqb n n_status. Proof. tk. Qed.
Lemma tok_host n : (lookup_token n =? TOKEN_HOST) = beqb n n_host. Proof. tk. Qed.
Lemma tok_clen n : (lookup_token n =? TOKEN_CONTENT_LENGTH) = beqb n n_clen. Proof. tk. Qed.
Lemma tok_te n : (lookup_token n =? TOKEN_TE) = beqb n n_te. Proof. tk. Qed.
Lemma tok_priority n : (lookup_token n =? TOKEN_PRIORITY) = beqb n n_priority. Proof. tk. Qed.
Lemma tok_conn n : disallowed (lookup_token n) = inb n conn_specific.
Proof.
  unfold disallowed, conn_specific. cbn [map inb].
  rewrite (tokb n (bs "connection") TOKEN_CONNECTION), (tokb n (bs "keep-alive") TOKEN_KEEP_ALIVE),
    (tokb n (bs "proxy-connection") TOKEN_PROXY_CONNECTION), (tokb n (bs "transfer-encoding") TOKEN_TRANSFER_ENCODING),
    (tokb n (bs "upgrade") TOKEN_UPGRADE) by (vm_compute; congruence).
  rewrite orb_false_r, !orb_assoc. reflexivity.
Qed.

(* ---------------- the two switches by kind ---------------- *)
Definition prio_step (sf : sfparser) (s : http) (v : list Z) (trailers : bool) : http * hverdict :=
  if negb (check_header_value v) then (hs_prio s false true (h_pri s), HDrop)
  else if trailers || h_badprio s then (s, HKeep)
  else match parse_priority sf (h_pri s) v with
       | Some p => (hs_prio s true (h_badprio s) p, HKeep)
       | None => (hs_prio s false true (h_pri s), HKeep)
       end.
Definition regular_step (s : http) (n v : list Z) : http * hverdict :=
  let rv := check_nonempty_header_name n in
  if rv =? 0 then (hs_nopseudo s, HDrop) else if rv =? -1 then (hs_nopseudo s, HBad)
  else if negb (check_header_value v) then (hs_nopseudo s, HDrop) else (hs_nopseudo s, HKeep).
Definition pseudo_step (s : http) (trailers bad : bool) (k : http) : http * hverdict :=
  if trailers || h_nopseudo s then (s, HBad) else if bad then (s, HBad) else (k, HKeep).
Definition kreq (sf : sfparser) (s : http) (n v : list Z) (trailers ext : bool) : http * hverdict :=
  let s1 := hs_nopseudo s in
  match kind_of n with
  | KAuthority => pseudo_step s trailers (negb (check_authority v) || h_authority s || is_nil v) (hs_authority s)
  | KMethod => pseudo_step s trailers (negb (check_method v) || h_method s || is_nil v)
                 (hs_method s (beqb v MCONNECT) (beqb v MHEAD) (beqb v MOPTIONS))
  | KPath => pseudo_step s trailers (negb (check_path v) || h_path s || is_nil v)
               (hs_path s (hd 0 v =? 47) (negb (hd 0 v =? 47) && beqb v [42]))
  | KScheme => pseudo_step s trailers (negb (check_scheme v) || h_scheme s || is_nil v)
                 (hs_scheme s (strieq SHTTP v || strieq SHTTPS v))
  | KProtocol => pseudo_step s trailers (negb ext || negb (check_header_value v) || h_protocol s || is_nil v)
                   (hs_protocol s)
  | KHost => if negb (check_authority v) then (s1, HDrop)
             else if h_host s || is_nil v then (s1, HBad) else (hs_host s1, HKeep)
  | KClen => if trailers then (s1, HDrop)
             else if negb (h_clen s =? -1) then (s1, HBad)
             else (hs_clen s1 (parse_uint v), if parse_uint v =? -1 then HBad else HKeep)
  | KConn => (s1, HBad)
  | KTe => (s1, if strieq STRAILERS v then HKeep else HBad)
  | KPriority => prio_step sf s1 v trailers
  | KStatus | KPseudo => (s, HBad)
  | KEmpty => (s1, HDrop)
  | KOther => regular_step s n v
  end.
Lemma on_header_req sf s f trailers ext : tok_ok f ->
  on_header sf s f true trailers ext = kreq sf s (q_name f) (q_value f) trailers ext.
Proof.
  destruct f as [n v t fl]. unfold tok_ok. cbn [q_name q_value q_token]. intros ->.
  unfold on_header, kreq, request_on_header, on_other, kind_of, pseudo_step. cbn [q_name q_value q_token].
  rewrite tok_authority, tok_method, tok_path, tok_scheme, tok_protocol, tok_host, tok_clen, tok_conn, tok_te, tok_priority.
  destruct (beqb n n_authority) eqn:B1; [apply beqb_spec in B1; subst n; destruct trailers, (h_nopseudo s); reflexivity|].
  destruct (beqb n n_method) eqn:B2; [apply beqb_spec in B2; subst n; destruct trailers, (h_nopseudo s); reflexivity|].
  destruct (beqb n n_path) eqn:B3; [apply beqb_spec in B3; subst n; destruct trailers, (h_nopseudo s); reflexivity|].
  destruct (beqb n n_scheme) eqn:B4; [apply beqb_spec in B4; subst n; destruct trailers, (h_nopseudo s); reflexivity|].
  destruct (beqb n n_protocol) eqn:B5; [apply beqb_spec in B5; subst n; destruct trailers, (h_nopseudo s); reflexivity|].
  destruct (beqb n n_status) eqn:B6; [apply beqb_spec in B6; subst n; destruct trailers, (h_nopseudo s); reflexivity|].
  destruct (beqb n n_host) eqn:B7; [apply beqb_spec in B7; subst n; reflexivity|].
  destruct (beqb n n_clen) eqn:B8; [apply beqb_spec in B8; subst n|].
  { destruct trailers; [reflexivity|]. cbn [n_clen]. change (check_nonempty_header_name n_clen) with 1.
    change (h_clen (hs_nopseudo s)) with (h_clen s). change (h_clen (hs_clen (hs_nopseudo s) (parse_uint v))) with (parse_uint v).
    cbn. destruct (h_clen s =? -1); cbn; [destruct (parse_uint v =? -1)|]; reflexivity. }
  destruct (inb n conn_specific) eqn:B9.
  { apply inb_spec in B9. unfold conn_specific in B9. cbn [map In] in B9. destruct B9 as [<-|[<-|[<-|[<-|[<-|[]]]]]]; reflexivity. }
  destruct (beqb n n_te) eqn:B10; [apply beqb_spec in B10; subst n|].
  { cbn. destruct (strieq STRAILERS v); reflexivity. }
  destruct (beqb n n_priority) eqn:B11; [apply beqb_spec in B11; subst n; reflexivity|].
  destruct n as [|c n]; [reflexivity|].
  destruct (c =? 58) eqn:C; [destruct ((lookup_token (c :: n) =? -1) || trailers || h_nopseudo s); reflexivity|].
  unfold regular_step. cbn zeta. reflexivity.
Qed.
Definition kres (s : http) (n v : list Z) (trailers : bool) : http * hverdict :=
  let s1 := hs_nopseudo s in
  match kind_of n with
  | KAuthority | KMethod | KPath | KScheme | KProtocol | KPseudo => (s, HBad)
  | KStatus =>
    if trailers || h_nopseudo s then (s, HBad)
    else if h_status s || is_nil v then (s, HBad)
    else if negb (zlen v =? 3) then (hs_status s (h_code s), HBad)
    else (hs_status s (parse_uint v), if (parse_uint v <? 100) || (parse_uint v =? 101) then HBad else HKeep)
  | KClen =>
    if trailers then (s1, HDrop)
    else if h_code s =? 204 then
      if negb (h_clen s =? -1) || negb (strieq [48] v) then (s1, HBad) else (hs_clen s1 0, HDrop)
    else if (Z.quot (h_code s) 100 =? 1) || ((Z.quot (h_code s) 100 =? 2) && h_connect s) then (s1, HDrop)
    else if negb (h_clen s =? -1) then (s1, HBad)
    else (hs_clen s1 (parse_uint v), if parse_uint v =? -1 then HBad else HKeep)
  | KConn => (s1, HBad)
  | KTe => (s1, if strieq STRAILERS v then HKeep else HBad)
  | KEmpty => (s1, HDrop)
  | KHost | KPriority | KOther => regular_step s n v
  end.
Lemma on_header_res sf s f trailers ext : tok_ok f ->
  on_header sf s f false trailers ext = kres s (q_name f) (q_value f) trailers.
Proof.
  destruct f as [n v t fl]. unfold tok_ok. cbn [q_name q_value q_token]. intros ->.
  unfold on_header, kres, response_on_header, on_other, kind_of, pseudo_step. cbn [q_name q_value q_token].
  rewrite tok_status, tok_clen, tok_conn, tok_te.
  destruct (beqb n n_authority) eqn:B1; [apply beqb_spec in B1; subst n; destruct trailers, (h_nopseudo s); reflexivity|].
  destruct (beqb n n_method) eqn:B2; [apply beqb_spec in B2; subst n; destruct trailers, (h_nopseudo s); reflexivity|].
  destruct (beqb n n_path) eqn:B3; [apply beqb_spec in B3; subst n; destruct trailers, (h_nopseudo s); reflexivity|].
  destruct (beqb n n_scheme) eqn:B4; [apply beqb_spec in B4; subst n; destruct trailers, (h_nopseudo s); reflexivity|].
  destruct (beqb n n_protocol) eqn:B5; [apply beqb_spec in B5; subst n; destruct trailers, (h_nopseudo s); reflexivity|].
  destruct (beqb n n_status) eqn:B6; [apply beqb_spec in B6; subst n|].
  { destruct trailers; [reflexivity|]. cbn -[Z.eqb parse_uint is_nil]. destruct (h_nopseudo s); [reflexivity|].
    destruct (h_status s || is_nil v); [reflexivity|]. destruct (negb (zlen v =? 3)); [reflexivity|].
    cbn -[Z.eqb parse_uint Z.ltb]. destruct ((parse_uint v <? 100) || (parse_uint v =? 101)); reflexivity. }
  destruct (beqb n n_host) eqn:B7; [apply beqb_spec in B7; subst n; reflexivity|].
  destruct (beqb n n_clen) eqn:B8; [apply beqb_spec in B8; subst n|].
  { destruct trailers; [reflexivity|]. cbn -[Z.eqb parse_uint Z.ltb Z.quot strieq].
    destruct (h_code s =? 204); [destruct (negb (h_clen s =? -1) || negb (strieq [48] v)); reflexivity|].
    destruct ((Z.quot (h_code s) 100 =? 1) || ((Z.quot (h_code s) 100 =? 2) && h_connect s)); [reflexivity|].
    destruct (h_clen s =? -1); cbn -[Z.eqb parse_uint]; [destruct (parse_uint v =? -1)|]; reflexivity. }
  destruct (inb n conn_specific) eqn:B9.
  { apply inb_spec in B9. unfold conn_specific in B9. cbn [map In] in B9. destruct B9 as [<-|[<-|[<-|[<-|[<-|[]]]]]]; reflexivity. }
  destruct (beqb n n_te) eqn:B10; [apply beqb_spec in B10; subst n|].
  { cbn. destruct (strieq STRAILERS v); reflexivity. }
  destruct (beqb n n_priority) eqn:B11; [apply beqb_spec in B11; subst n; reflexivity|].
  destruct n as [|c n]; [reflexivity|].
  destruct (c =? 58) eqn:C; [destruct ((lookup_token (c :: n) =? -1) || trailers || h_nopseudo s); reflexivity|].
  unfold regular_step. cbn zeta. reflexivity.
Qed.

(* ---------------- lists of fields ---------------- *)
Lemma values_app n a b : values n (a ++ b) = values n a ++ values n b.
Proof. unfold values. rewrite filter_app, map_app. reflexivity. Qed.
Lemma values_one n m v : values n [(m, v)] = if beqb m n then [v] else [].
Proof. unfold values, beqb. cbn [filter fst map]. destruct (list_eq_dec Z.eq_dec m n); reflexivity. Qed.
Lemma values_snoc n D m v : values n (D ++ [(m, v)]) = values n D ++ if beqb m n then [v] else [].
Proof. rewrite values_app, values_one. reflexivity. Qed.
Lemma values_in n l v : In v (values n l) <-> In (n, v) l.
Proof.
  unfold values. rewrite in_map_iff. split.
  - intros ([a b] & <- & I). apply filter_In in I as [I E]. cbn [fst snd] in *. destruct (list_eq_dec Z.eq_dec a n); [subst; auto|discriminate].
  - intros I. exists (n, v). split; [reflexivity|]. apply filter_In. split; [auto|]. cbn [fst]. destruct (list_eq_dec Z.eq_dec n n); congruence.
Qed.
Lemma values_forall (P : list Z -> Prop) n l : Forall P (values n l) <-> (forall v, In (n, v) l -> P v).
Proof.
  rewrite Forall_forall. split; intros H v I; apply H; apply values_in; auto.
Qed.
Lemma absent_spec n l : absent n l <-> forall v, ~ In (n, v) l.
Proof.
  unfold absent. split.
  - intros E v I. apply values_in in I. rewrite E in I. destruct I.
  - intros H. destruct (values n l) as [|v r] eqn:E; auto. destruct (H v). apply values_in. rewrite E. left; auto.
Qed.

(* ---------------- well-formedness of a request, field by field ---------------- *)
Definition authority_ok (v : list Z) : Prop := v <> [] /\ Forall authority_char v.
Definition fok (ext : bool) (n v : list Z) : Prop :=
  match kind_of n with
  | KAuthority | KHost => v <> [] /\ Forall authority_char v
  | KMethod => v <> [] /\ Forall tchar v
  | KPath => v <> [] /\ Forall path_char v
  | KScheme => scheme_ok v
  | KProtocol => v <> [] /\ ext = true /\ value_ok v
  | KClen => number v /\ num v <= max_varint
  | KTe => same_ci (bs "trailers") v
  | KPriority => value_ok v
  | KOther => name_ok n /\ value_ok v
  | _ => False
  end.
Definition known_req := [n_method; n_scheme; n_authority; n_path; n_protocol].
Definition singles := n_host :: n_clen :: known_req.
Definition ordered (known : list (list Z)) (l : fields) : Prop :=
  exists P R, l = P ++ R /\ Forall (fun f => In (fst f) known) P /\ Forall (fun f => name_ok (fst f)) R.
Record wfp (known single : list (list Z)) (ok : list Z -> list Z -> Prop) (l : fields) : Prop := {
  p_ok : forall n v, In (n, v) l -> ok n v;
  p_order : ordered known l;
  p_once : forall n, In n single -> at_most_once n l }.

Lemma colon_not_tchar t : ~ name_ok (58 :: t).
Proof.
  intros [_ F]. inversion F as [|? ? [T _] _]. apply tcharb_spec in T. vm_compute in T. discriminate.
Qed.
(* values made of visible characters are fine *)
Lemma visible_ok v : Forall path_char v -> value_ok v.
Proof.
  intros F. unfold value_ok. split.
  { eapply Forall_impl; [|exact F]. intros a. unfold path_char, between. lia. }
  rewrite Forall_forall in F. split.
  - intros c t ->. specialize (F c (or_introl eq_refl)). unfold path_char, between, blank in *. lia.
  - intros c t ->. specialize (F c ltac:(apply in_or_app; right; left; reflexivity)). unfold path_char, between, blank in *. lia.
Qed.
Lemma memb_all (P : Z -> bool) l c : forallb P l = true -> In c l -> P c = true.
Proof. rewrite forallb_forall. auto. Qed.
Lemma tchar_visible c : tchar c -> path_char c.
Proof.
  intros [I|K].
  - apply (memb_all (fun c => (33 <=? c) && (c <=? 126))) in I; [|vm_compute; reflexivity]. left. unfold between. lia.
  - unfold digit, lc_alpha, uc_alpha, path_char, between in *. lia.
Qed.
Lemma authority_visible c : authority_char c -> path_char c.
Proof.
  intros [K|[K|[K|I]]]; try (unfold digit, lc_alpha, uc_alpha, path_char, between in *; lia).
  apply (memb_all (fun c => (33 <=? c) && (c <=? 126))) in I; [|vm_compute; reflexivity]. left. unfold between. lia.
Qed.
Lemma scheme_visible v : scheme_ok v -> Forall path_char v.
Proof.
  intros (c & t & -> & A & F). constructor; [unfold lc_alpha, uc_alpha, path_char, between in *; lia|].
  eapply Forall_impl; [|exact F]. intros x [K|[K|[K|I]]]; try (unfold digit, lc_alpha, uc_alpha, path_char, between in *; lia).
  apply (memb_all (fun c => (33 <=? c) && (c <=? 126))) in I; [|vm_compute; reflexivity]. left. unfold between. lia.
Qed.
Lemma number_visible v : number v -> Forall path_char v.
Proof. intros [_ F]. eapply Forall_impl; [|exact F]. intros a. unfold digit, path_char, between. lia. Qed.
Lemma trailers_visible v : same_ci (bs "trailers") v -> Forall path_char v.
Proof.
  unfold same_ci. intros E. apply Forall_forall. intros c I.
  assert (J : In (lc c) (bs "trailers")) by (rewrite <- E; apply in_map; auto).
  apply (memb_all (fun c => (97 <=? c) && (c <=? 122))) in J; [|vm_compute; reflexivity].
  unfold lc in J. left. unfold between. destruct ((65 <=? c) && (c <=? 90)) eqn:U; lia.
Qed.
Lemma fok_value ext n v : fok ext n v -> value_ok v.
Proof.
  unfold fok. destruct (kind_of n); try contradiction; try tauto;
    try (intros [_ F]; apply visible_ok; eapply Forall_impl; [|exact F]; auto using tchar_visible, authority_visible).
  - intros F. apply visible_ok, scheme_visible; auto.
  - intros [F _]. apply visible_ok, number_visible; auto.
  - intros F. apply visible_ok, trailers_visible; auto.
Qed.

Definition fin_req (l : fields) : Prop :=
  (plain_connect l -> absent n_scheme l /\ absent n_path l /\ present n_authority l) /\
  (~ plain_connect l -> present n_method l /\ present n_scheme l /\ present n_path l /\ (present n_authority l \/ present n_host l)) /\
  (present n_protocol l -> In (bs "CONNECT") (values n_method l) /\ present n_authority l) /\
  (forall s p, In s (values n_scheme l) -> In p (values n_path l) ->
    same_ci (bs "http") s \/ same_ci (bs "https") s ->
    (exists t, p = 47 :: t) \/ (p = bs "*" /\ In (bs "OPTIONS") (values n_method l))).
Definition dwfp ext l := wfp known_req singles (fok ext) l.
Lemma present_ex n l : present n l -> exists v, In (n, v) l.
Proof.
  unfold present. intros H. destruct (values n l) as [|v r] eqn:E; [congruence|].
  exists v. apply values_in. rewrite E. left. reflexivity.
Qed.
Lemma ordered_in known l n v : ordered known l -> In (n, v) l -> In n known \/ name_ok n.
Proof.
  intros (P & R & -> & FP & FR) I. apply in_app_or in I. rewrite Forall_forall in FP, FR.
  destruct I as [I|I]; [left; exact (FP _ I)|right; exact (FR _ I)].
Qed.
Lemma wf_request_split ext l : wf_request ext l <-> dwfp ext l /\ fin_req l.
Proof.
  split.
  - intros [C M SC A P H PR F1 F2 F3 F4]. destruct C as [CO CN CV CC CT CL1 CL2].
    rewrite values_forall in M, SC, A, P, PR, CT, CL2. destruct H as [H1 H2]. rewrite values_forall in H2.
    rewrite Forall_forall in CV. split.
    + constructor.
      * intros n v I. specialize (CV _ I). cbn [snd] in CV. unfold fok.
        destruct (kind_of n) eqn:K;
          try (match goal with |- ?X => assert (kind_name (kind_of n) = kind_name (kind_of n)) by reflexivity end;
               assert (E : forall m, kind_name (kind_of n) = Some m -> n = m) by (intros; apply kind_of_name; assumption);
               rewrite K in E; cbn [kind_name] in E; specialize (E _ eq_refl); subst n; auto; fail).
        -- assert (n = n_protocol) by (apply kind_of_name; rewrite K; reflexivity). subst n.
           split; [apply PR; auto|]. split; [|exact CV]. apply F3. unfold present. intros E.
           apply values_in in I. rewrite E in I. destruct I.
        -- exfalso. assert (n = n_status) by (apply kind_of_name; rewrite K; reflexivity). subst n.
           destruct (ordered_in _ _ _ _ CO I) as [J|J].
           ++ apply inb_spec in J. vm_compute in J. discriminate.
           ++ exact (colon_not_tchar _ J).
        -- apply kind_of_conn in K. specialize (CC n K). apply absent_spec with (v := v) in CC. auto.
        -- destruct (ordered_in _ _ _ _ CO I) as [J|[J _]].
           ++ destruct n; [|discriminate K || (unfold kind_of in K)].
              ** apply inb_spec in J. vm_compute in J. discriminate.
              ** revert K. repeat match goal with |- context [if ?b then _ else _] => destruct b; [discriminate|] end. discriminate.
           ++ apply J. destruct n; auto. revert K. unfold kind_of.
              repeat match goal with |- context [if ?b then _ else _] => destruct b; [discriminate|] end. discriminate.
        -- destruct (ordered_in _ _ _ _ CO I) as [J|J].
           ++ cbn [known_req In] in J. destruct J as [<-|[<-|[<-|[<-|[<-|[]]]]]]; vm_compute in K; discriminate.
           ++ destruct n as [|c n]; [vm_compute in K; discriminate|]. revert K. unfold kind_of.
              repeat match goal with |- context [if beqb ?a ?b then _ else _] => destruct (beqb a b); [discriminate|] end.
              destruct (inb (c :: n) conn_specific); [discriminate|].
              repeat match goal with |- context [if beqb ?a ?b then _ else _] => destruct (beqb a b); [discriminate|] end.
              destruct (c =? 58) eqn:C; [|discriminate]. apply Z.eqb_eq in C. subst c. intros _. exact (colon_not_tchar _ J).
        -- destruct (ordered_in _ _ _ _ CO I) as [J|J]; [|split; auto].
           cbn [known_req In] in J. destruct J as [<-|[<-|[<-|[<-|[<-|[]]]]]]; vm_compute in K; discriminate.
      * exact CO.
      * intros n [<-|[<-|I]]; auto.
    + unfold fin_req. split; [auto|]. split; [auto|]. split; [|auto]. intros X. apply F3 in X. tauto.
  - intros [[OK O1 O2] (F1 & F2 & F3 & F4)]. 
    assert (V : forall n v, In (n, v) l -> value_ok v) by (intros n v I; eapply fok_value; eauto).
    constructor; auto; try (rewrite values_forall; intros v I; exact (OK _ _ I)).
    + constructor.
      * exact O1.
      * intros n I. apply O2. right; right; exact I.
      * apply Forall_forall. intros [n v] I. exact (V _ _ I).
      * intros n I. apply absent_spec. intros v J. specialize (OK _ _ J). unfold fok in OK. rewrite (kind_conn n I) in OK. exact OK.
      * rewrite values_forall; intros v I; exact (OK _ _ I).
      * apply O2. right; left; reflexivity.
      * rewrite values_forall; intros v I; exact (OK _ _ I).
    + split; [apply O2; left; reflexivity|]. rewrite values_forall; intros v I; exact (OK _ _ I).
    + rewrite values_forall; intros v I. exact (proj1 (OK _ _ I)).
    + intros X. destruct (F3 X) as [A B]. apply present_ex in X as (v & I). specialize (OK _ _ I).
      split; [exact (proj1 (proj2 OK))|]. auto.
Qed.

(* ---------------- what the request state remembers of the delivered fields ---------------- *)
Definition presentb (n : list Z) (D : fields) : bool := negb (is_nil (values n D)).
Lemma presentb_spec n D : presentb n D = true <-> present n D.
Proof. unfold presentb, present. destruct (values n D); cbn; split; congruence. Qed.
Lemma absentb_spec n D : presentb n D = false <-> absent n D.
Proof. unfold presentb, absent. destruct (values n D); cbn; split; congruence. Qed.
Definition someb (p : list Z -> bool) (n : list Z) (D : fields) : bool := existsb p (values n D).
Definition clen_of (D : fields) : Z := match values n_clen D with [] => -1 | v :: _ => parse_uint v end.
Record rep (s : http) (D : fields) : Prop := {
  r_authority : h_authority s = presentb n_authority D;
  r_path : h_path s = presentb n_path D;
  r_method : h_method s = presentb n_method D;
  r_scheme : h_scheme s = presentb n_scheme D;
  r_host : h_host s = presentb n_host D;
  r_protocol : h_protocol s = presentb n_protocol D;
  r_connect : h_connect s = someb (fun v => beqb v MCONNECT) n_method D;
  r_options : h_options s = someb (fun v => beqb v MOPTIONS) n_method D;
  r_regular : h_regular s = someb (fun v => hd 0 v =? 47) n_path D;
  r_asterisk : h_asterisk s = someb (fun v => beqb v [42]) n_path D;
  r_http : h_http s = someb (fun v => strieq SHTTP v || strieq SHTTPS v) n_scheme D;
  r_clen : h_clen s = clen_of D;
  r_final : h_final s = false;
  r_recv : h_recv s = 0 }.
Lemma rep_init : rep http_init [].
Proof. constructor; reflexivity. Qed.
Lemma presentb_snoc n D m v : presentb n (D ++ [(m, v)]) = presentb n D || beqb m n.
Proof. unfold presentb. rewrite values_snoc. destruct (values n D), (beqb m n); reflexivity. Qed.
Lemma someb_snoc p n D m v : someb p n (D ++ [(m, v)]) = someb p n D || (beqb m n && p v).
Proof. unfold someb. rewrite values_snoc, existsb_app. destruct (beqb m n); cbn; [rewrite orb_false_r|]; reflexivity. Qed.
Lemma clen_snoc D m v : clen_of (D ++ [(m, v)]) = if negb (presentb n_clen D) && beqb m n_clen then parse_uint v else clen_of D.
Proof. unfold clen_of, presentb. rewrite values_snoc. destruct (values n_clen D), (beqb m n_clen); reflexivity. Qed.
Lemma kind_neq n k m : kind_of n = k -> kind_of m <> k -> beqb n m = false.
Proof. intros A B. destruct (beqb n m) eqn:E; auto. apply beqb_spec in E. congruence. Qed.
(* a kept field of a kind the state does not track *)
Lemma rep_other s s' D n v : rep s D ->
  match kind_of n with KTe | KPriority | KOther => True | _ => False end ->
  h_authority s' = h_authority s -> h_path s' = h_path s -> h_method s' = h_method s -> h_scheme s' = h_scheme s ->
  h_host s' = h_host s -> h_protocol s' = h_protocol s -> h_connect s' = h_connect s -> h_options s' = h_options s ->
  h_regular s' = h_regular s -> h_asterisk s' = h_asterisk s -> h_http s' = h_http s -> h_clen s' = h_clen s ->
  h_final s' = h_final s -> h_recv s' = h_recv s -> rep s' (D ++ [(n, v)]).
Proof.
  intros [] K. intros.
  assert (NE : forall m, match kind_of m with KTe | KPriority | KOther => False | _ => True end -> beqb n m = false).
  { intros m H13. destruct (beqb n m) eqn:E; auto. apply beqb_spec in E. subst m. destruct (kind_of n); contradiction. }
  constructor; rewrite ?presentb_snoc, ?someb_snoc, ?clen_snoc, ?NE by (vm_compute; exact I);
    rewrite ?andb_false_l, ?andb_false_r, ?orb_false_r; congruence.
Qed.
Lemma rep_same s s' D : rep s D ->
  h_authority s' = h_authority s -> h_path s' = h_path s -> h_method s' = h_method s -> h_scheme s' = h_scheme s ->
  h_host s' = h_host s -> h_protocol s' = h_protocol s -> h_connect s' = h_connect s -> h_options s' = h_options s ->
  h_regular s' = h_regular s -> h_asterisk s' = h_asterisk s -> h_http s' = h_http s -> h_clen s' = h_clen s ->
  h_final s' = h_final s -> h_recv s' = h_recv s -> rep s' D.
Proof. intros [] **. constructor; congruence. Qed.

Definition knownb (n : list Z) : bool := inb n known_req.
(* when a field is kept *)
Definition acc (ext : bool) (s : http) (D : fields) (n v : list Z) : Prop :=
  fok ext n v /\ (In n singles -> absent n D) /\ (In n known_req -> h_nopseudo s = false).

Lemma clen_absent D : (forall v, In (n_clen, v) D -> number v /\ num v <= max_varint) ->
  (clen_of D = -1 <-> absent n_clen D).
Proof.
  intros H. unfold clen_of, absent. destruct (values n_clen D) as [|v r] eqn:E; [tauto|].
  split; [|discriminate]. intros K. exfalso.
  assert (I : In v (values n_clen D)) by (rewrite E; left; reflexivity). apply values_in in I.
  destruct (parse_uint_spec v) as [[_ N]|(Q & _ & R)]; [exact (N (H _ I))|]. lia.
Qed.
Lemma in_singles n : In n singles <->
  match kind_of n with KAuthority | KMethod | KPath | KScheme | KProtocol | KHost | KClen => True | _ => False end.
Proof.
  split.
  - unfold singles, known_req. cbn [In]. intros [<-|[<-|[<-|[<-|[<-|[<-|[<-|[]]]]]]]]; vm_compute; exact I.
  - destruct (kind_of n) eqn:K; try contradiction; intros _; apply inb_spec;
      match goal with |- inb n _ = true => assert (E : forall m, kind_name (kind_of n) = Some m -> n = m) by (intros; apply kind_of_name; assumption) end;
      rewrite K in E; specialize (E _ eq_refl); subst n; vm_compute; reflexivity.
Qed.
Lemma in_known n : In n known_req <->
  match kind_of n with KAuthority | KMethod | KPath | KScheme | KProtocol => True | _ => False end.
Proof.
  split.
  - unfold known_req. cbn [In]. intros [<-|[<-|[<-|[<-|[<-|[]]]]]]; vm_compute; exact I.
  - destruct (kind_of n) eqn:K; try contradiction; intros _; apply inb_spec;
      match goal with |- inb n _ = true => assert (E : forall m, kind_name (kind_of n) = Some m -> n = m) by (intros; apply kind_of_name; assumption) end;
      rewrite K in E; specialize (E _ eq_refl); subst n; vm_compute; reflexivity.
Qed.

Definition step_spec (acc : Prop) (keepP dropP : Prop) (r : hverdict) : Prop :=
  match r with HKeep => acc /\ keepP | HDrop => ~ acc /\ dropP | HBad => ~ acc end.
Lemma is_nil_spec {A} (l : list A) : is_nil l = false <-> l <> [].
Proof. destruct l; cbn; split; congruence. Qed.
Lemma pseudo_step_spec s bad k (A : Prop) (KP DP : Prop) :
  (A -> h_nopseudo s = false /\ bad = false) -> (h_nopseudo s = false -> bad = false -> A) ->
  (h_nopseudo s = false -> KP) ->
  forall s' r, pseudo_step s false bad k = (s', r) -> step_spec A (s' = k /\ KP) DP r.
Proof.
  intros H1 H2 H3 s' r. unfold pseudo_step. cbn [orb]. destruct (h_nopseudo s) eqn:N.
  { intros E; injection E as <- <-. cbn. intros K. destruct (H1 K). discriminate. }
  destruct bad; intros E; injection E as <- <-; cbn.
  - intros K. destruct (H1 K). discriminate.
  - auto.
Qed.
Ltac kname K := match type of K with kind_of ?n = _ =>
  let E := fresh in assert (E : forall m, kind_name (kind_of n) = Some m -> n = m) by (intros; apply kind_of_name; assumption);
  rewrite K in E; specialize (E _ eq_refl); subst n end.
(* pointwise update of [rep] for a concrete name *)
Ltac rsnoc := rewrite ?presentb_snoc, ?someb_snoc, ?clen_snoc;
  repeat match goal with |- context [beqb ?a ?b] => 
    first [ replace (beqb a b) with true by (vm_compute; reflexivity) | replace (beqb a b) with false by (vm_compute; reflexivity) ] end;
  rewrite ?andb_false_l, ?andb_false_r, ?orb_false_r, ?orb_true_r, ?andb_true_l.

Ltac pk lem r := eapply (pseudo_step_spec _ _ _ _ True False) in lem;
  [ destruct r; cbn [step_spec] in lem |- *; [destruct lem as (E1 & -> & _); split; [exact E1|]; split;
     [constructor; rsnoc; auto; try (match goal with X : _ = _ |- _ => rewrite <- X; reflexivity end)
     | match goal with |- _ = _ || negb (knownb ?x) => change (negb (knownb x)) with false end; rewrite orb_false_r; reflexivity]
    | destruct lem as [_ []] | exact lem ]
  | intros (F & A1 & A2); split; [apply A2; apply in_known; exact I|]; specialize (A1 ltac:(apply in_singles; exact I))
  | intros N B; split; [|split; [intros _|intros _; exact N]]
  | auto ].
Lemma req_step sf ext s D n v s' r : bytes n -> bytes v -> rep s D ->
  (forall v, In (n_clen, v) D -> number v /\ num v <= max_varint) ->
  kreq sf s n v false ext = (s', r) ->
  step_spec (acc ext s D n v)
    (rep s' (D ++ [(n, v)]) /\ h_nopseudo s' = h_nopseudo s || negb (knownb n))
    (rep s' D /\ (h_nopseudo s = true -> h_nopseudo s' = true) /\ bad_field (n, v)) r.
Proof.
  intros Bn Bv R CL. unfold kreq. destruct (kind_of n) eqn:K.
  - (* :authority *) kname K. pose proof R as []. intros E.
    pk E r.
    + rewrite !orb_false_iff, negb_false_iff, check_authority_spec, is_nil_spec, r_authority0, absentb_spec by auto.
      destruct F; auto.
    + rewrite !orb_false_iff, negb_false_iff, check_authority_spec, is_nil_spec in B by auto. destruct B as [[B1 B2] B3]. split; assumption.
    + rewrite !orb_false_iff, r_authority0, absentb_spec in B by auto. apply B.
  - (* :method *) kname K. pose proof R as []. intros E.
    pk E r.
    + rewrite !orb_false_iff, negb_false_iff, check_method_spec, is_nil_spec, r_method0, absentb_spec by auto.
      destruct F; auto.
    + rewrite !orb_false_iff, negb_false_iff, check_method_spec, is_nil_spec in B by auto. destruct B as [[B1 B2] B3]. exact B1.
    + rewrite !orb_false_iff, r_method0, absentb_spec in B by auto. apply B.
  - (* :path *) kname K. pose proof R as []. intros E.
    pk E r.
    + rewrite <- r_asterisk0. unfold hs_path, h_asterisk at 1. f_equal.
      destruct (beqb v [42]) eqn:Bq; [apply beqb_spec in Bq; subst v; reflexivity|apply andb_false_r].
    + rewrite !orb_false_iff, negb_false_iff, check_path_spec, is_nil_spec, r_path0, absentb_spec by auto.
      destruct F; auto.
    + rewrite !orb_false_iff, negb_false_iff, check_path_spec, is_nil_spec in B by auto. destruct B as [[B1 B2] B3]. split; assumption.
    + rewrite !orb_false_iff, r_path0, absentb_spec in B by auto. apply B.
  - (* :scheme *) kname K. pose proof R as []. intros E.
    pk E r.
    + rewrite !orb_false_iff, negb_false_iff, check_scheme_spec, is_nil_spec, r_scheme0, absentb_spec by auto.
      split; [split; assumption|]. destruct F as (c & t & -> & _). discriminate.
    + rewrite !orb_false_iff, negb_false_iff, check_scheme_spec, is_nil_spec in B by auto. apply B.
    + rewrite !orb_false_iff, r_scheme0, absentb_spec in B by auto. apply B.
  - (* :protocol *) kname K. pose proof R as []. intros E.
    pk E r.
    + rewrite !orb_false_iff, !negb_false_iff, check_value_spec, is_nil_spec, r_protocol0, absentb_spec by auto.
      destruct F as (F1 & F2 & F3); auto.
    + rewrite !orb_false_iff, !negb_false_iff, check_value_spec, is_nil_spec in B by auto. unfold fok. rewrite K. tauto.
    + rewrite !orb_false_iff, r_protocol0, absentb_spec in B by auto. apply B.
  - (* :status *) intros E; injection E as <- <-. cbn [step_spec]. intros (F & _). unfold fok in F. rewrite K in F. exact F.
  - (* host *) kname K. pose proof R as []. intros E.
    destruct (check_authority v) eqn:C; cbn [negb] in E.
    2:{ injection E as <- <-. cbn [step_spec]. assert (N : ~ Forall authority_char v) by (rewrite <- check_authority_spec by auto; congruence).
        split; [intros ((_ & F) & _); contradiction|]. split; [|split; [reflexivity|right; right; auto]].
        eapply rep_same; eauto. }
    apply check_authority_spec in C; auto.
    destruct (h_host s || is_nil v) eqn:B; injection E as <- <-; cbn [step_spec].
    + intros ((F & _) & A & _). apply is_nil_spec in F. specialize (A ltac:(apply in_singles; exact I)). apply absentb_spec in A.
      rewrite r_host0, A, F in B. discriminate.
    + rewrite orb_false_iff, is_nil_spec, r_host0, absentb_spec in B. destruct B as [B1 B2]. split.
      * split; [split; assumption|]. split; [auto|]. rewrite in_known. intros [].
      * split; [constructor; rsnoc; auto|]. change (knownb n_host) with false. cbn. rewrite orb_true_r. reflexivity.
  - (* content-length *) kname K. pose proof R as []. intros E.
    pose proof (clen_absent D CL) as CA. rewrite r_clen0 in E.
    destruct (clen_of D =? -1) eqn:C; cbn [negb] in E; [apply Z.eqb_eq in C|apply Z.eqb_neq in C].
    + apply CA in C. destruct (parse_uint_spec v) as [[P N]|(P & N & Rg)]; rewrite P in E.
      * injection E as <- <-. cbn. intros (F & _). contradiction.
      * destruct (num v =? -1) eqn:M; [lia|]. injection E as <- <-. cbn [step_spec]. split.
        -- split; [split; [assumption|lia]|]. split; [auto|]. rewrite in_known. intros [].
        -- assert (A : presentb n_clen D = false) by (apply absentb_spec; auto). split.
           ++ constructor; rsnoc; auto. rewrite A. cbn [negb andb]. rewrite P. reflexivity.
           ++ change (knownb n_clen) with false. cbn. rewrite orb_true_r. reflexivity.
    + injection E as <- <-. cbn [step_spec]. intros (_ & A & _). specialize (A ltac:(apply in_singles; exact I)). tauto.
  - (* connection-specific *) intros E; injection E as <- <-. cbn [step_spec]. intros (F & _). unfold fok in F. rewrite K in F. exact F.
  - (* te *) kname K. pose proof R as []. intros E. destruct (strieq STRAILERS v) eqn:T; injection E as <- <-; cbn [step_spec].
    + apply strieq_spec in T. split.
      * split; [exact T|]. split; [rewrite in_singles; intros []|rewrite in_known; intros []].
      * split; [|change (knownb n_te) with false; cbn; rewrite orb_true_r; reflexivity].
        eapply rep_other; eauto. exact I.
    + intros (F & _). unfold fok in F; rewrite K in F. apply strieq_spec in F. change (bs "trailers") with STRAILERS in F. congruence.
  - (* priority *) kname K. unfold prio_step. intros E. destruct (check_header_value v) eqn:C; cbn [negb orb] in E.
    + apply check_value_spec in C; auto.
      assert (A : acc ext s D n_priority v).
      { split; [exact C|]. split; [rewrite in_singles; intros []|rewrite in_known; intros []]. }
      change (knownb n_priority) with false. rewrite orb_true_r.
      destruct (h_badprio (hs_nopseudo s)); [|destruct (parse_priority sf (h_pri (hs_nopseudo s)) v)]; injection E as <- <-; cbn [step_spec];
        (split; [exact A|split; [eapply rep_other; eauto; exact I|reflexivity]]).
    + assert (N : ~ value_ok v) by (rewrite <- check_value_spec by auto; congruence).
      injection E as <- <-. cbn [step_spec]. split; [intros (F & _); contradiction|].
      split; [eapply rep_same; eauto|]. split; [reflexivity|]. right; left. exact N.
  - (* empty name *) assert (N : n = []).
    { destruct n; auto. revert K. unfold kind_of.
      repeat match goal with |- context [if ?b then _ else _] => destruct b; [discriminate|] end. discriminate. }
    subst n. intros E; injection E as <- <-. cbn [step_spec]. split; [intros (F & _); exact F|].
    split; [eapply rep_same; eauto|]. split; [reflexivity|]. left. split; [intros (t & X); discriminate|]. intros [X _]. apply X; reflexivity.
  - (* unknown pseudo *) intros E; injection E as <- <-. cbn [step_spec]. intros (F & _). unfold fok in F. rewrite K in F. exact F.
  - (* other *) unfold regular_step. intros E.
    assert (KN : knownb n = false) by (destruct (knownb n) eqn:X; auto; apply inb_spec, in_known in X; rewrite K in X; contradiction).
    assert (NN : n <> []) by (intros ->; vm_compute in K; discriminate).
    assert (NP : ~ pseudo n).
    { intros (t & ->). revert K. unfold kind_of.
      repeat match goal with |- context [if beqb ?a ?b then _ else _] => destruct (beqb a b); [discriminate|] end.
      destruct (inb (58 :: t) conn_specific); [discriminate|].
      repeat match goal with |- context [if beqb ?a ?b then _ else _] => destruct (beqb a b); [discriminate|] end. discriminate. }
    pose proof (check_name_spec n Bn) as NS. cbn zeta in E.
    destruct (check_name_range n Bn) as [X|[X|X]]; rewrite X in E, NS; cbn [Z.eqb] in E.
    + destruct (check_header_value v) eqn:C; cbn [negb] in E; injection E as <- <-; cbn [step_spec].
      * apply check_value_spec in C; auto. split.
        -- split; [unfold fok; rewrite K; split; [split; [exact NN|tauto]|exact C]|].
           split; [rewrite in_singles, K; intros []|rewrite in_known, K; intros []].
        -- rewrite KN. cbn [negb]. rewrite orb_true_r. split; [|reflexivity]. eapply rep_other; eauto. rewrite K. exact I.
      * assert (N : ~ value_ok v) by (rewrite <- check_value_spec by auto; congruence).
        split; [intros (F & _); unfold fok in F; rewrite K in F; tauto|].
        split; [eapply rep_same; eauto|]. split; [reflexivity|]. right; left. exact N.
    + assert (N : ~ name_ok n) by (intros [_ F]; apply NS in F; discriminate).
      injection E as <- <-. cbn [step_spec]. split; [intros (F & _); unfold fok in F; rewrite K in F; tauto|].
      split; [eapply rep_same; eauto|]. split; [reflexivity|]. left. auto.
    + injection E as <- <-. cbn [step_spec]. intros (F & _). unfold fok in F. rewrite K in F. destruct F as [[_ F] _]. apply NS in F. discriminate.
Qed.

(* ---------------- a whole request section ---------------- *)
Lemma at_most_snoc n D m v : at_most_once n (D ++ [(m, v)]) <-> at_most_once n D /\ (m = n -> absent n D).
Proof.
  unfold at_most_once, absent. rewrite values_snoc, app_length. destruct (beqb m n) eqn:E.
  - apply beqb_spec in E. cbn [length]. split.
    + intros H. assert (length (values n D) = 0%nat) by lia. split; [lia|]. intros _. apply length_zero_iff_nil. auto.
    + intros [_ A]. rewrite (A E). cbn. lia.
  - cbn [length]. split; [intros H; split; [lia|]|lia]. intros ->. rewrite beqb_refl in E. discriminate.
Qed.
Lemma known_pseudo n : In n known_req -> ~ name_ok n.
Proof. unfold known_req. cbn [In]. intros [<-|[<-|[<-|[<-|[<-|[]]]]]]; apply colon_not_tchar. Qed.
Lemma fok_named ext n v : fok ext n v -> In n known_req \/ name_ok n.
Proof.
  intros F. destruct (kind_of n) eqn:K; unfold fok in F; rewrite K in F; try contradiction;
    try (left; apply in_known; rewrite K; exact I); try (right; tauto); kname K; right;
    (split; [discriminate|]); (apply check_name_spec; [|reflexivity]); repeat constructor; unfold is_byte; lia.
Qed.
Lemma wfp_snoc ext s D n v : dwfp ext D -> (h_nopseudo s = false -> Forall (fun f => In (fst f) known_req) D) ->
  acc ext s D n v -> dwfp ext (D ++ [(n, v)]).
Proof.
  intros [OK O1 O2] NP (F & A1 & A2). constructor.
  - intros m w I. apply in_app_or in I as [I|[I|[]]]; [eauto|]. injection I as <- <-. exact F.
  - destruct (fok_named _ _ _ F) as [K|K].
    + exists (D ++ [(n, v)]), []. rewrite app_nil_r. split; [reflexivity|]. split; [|constructor].
      apply Forall_app. split; [apply NP; auto|]. constructor; auto.
    + destruct O1 as (P & R & -> & FP & FR). exists P, (R ++ [(n, v)]). rewrite app_assoc. split; [reflexivity|]. split; [exact FP|].
      apply Forall_app. split; [exact FR|]. constructor; auto.
  - intros m I. apply at_most_snoc. split; [apply O2; auto|]. intros <-. auto.
Qed.
Lemma dwfp_nil ext : dwfp ext [].
Proof.
  constructor; [intros ? ? []| |intros n _; unfold at_most_once; cbn; lia].
  exists [], []. auto.
Qed.
Lemma dwfp_clen ext D : dwfp ext D -> forall v, In (n_clen, v) D -> number v /\ num v <= max_varint.
Proof. intros [OK _ _] v I. exact (OK _ _ I). Qed.
Lemma dwfp_prefix ext D l : dwfp ext (D ++ l) -> dwfp ext D.
Proof.
  intros [OK (P & R & E & FP & FR) O2]. constructor.
  - intros n v I. apply OK. apply in_or_app; auto.
  - assert (EQ : exists P1 R1, D = P1 ++ R1 /\ Forall (fun f => In (fst f) known_req) P1 /\ Forall (fun f => name_ok (fst f)) R1); [|exact EQ].
    apply app_eq_app in E as (m & [[-> ->]|[-> ->]]).
    + exists P, m. apply Forall_app in FR as [FR _]. auto.
    + exists D, []. rewrite app_nil_r. apply Forall_app in FP as [FP _]. auto.
  - intros n I. specialize (O2 n I). unfold at_most_once in *. rewrite values_app, app_length in O2. lia.
Qed.
Lemma req_sound sf ext l : forall s D s' out, Forall good_field l -> rep s D -> dwfp ext D ->
  (h_nopseudo s = false -> Forall (fun f => In (fst f) known_req) D) ->
  on_headers sf s l true false ext = (s', out, true) ->
  rep s' (D ++ map fl out) /\ dwfp ext (D ++ map fl out) /\ drops (fun f => bad_field (fl f)) l out.
Proof.
  induction l as [|f l IH]; intros s D s' out G R W NP E; cbn [on_headers] in E.
  - injection E as <- <-. cbn [map]. rewrite app_nil_r. split; [exact R|]. split; [exact W|constructor].
  - inversion G as [|? ? (T & Bn & Bv) G']; subst. rewrite on_header_req in E by auto.
    destruct (kreq sf s (q_name f) (q_value f) false ext) as [s1 r] eqn:K.
    pose proof (req_step _ _ _ _ _ _ _ _ Bn Bv R (dwfp_clen _ _ W) K) as ST.
    destruct r; cbn [step_spec] in ST; [| |discriminate].
    + destruct ST as (A & R1 & N1). destruct (on_headers sf s1 l true false ext) as [[s2 o2] ok] eqn:E2.
      injection E as <- <- ->. cbn [map].
      change (fl f :: map fl o2) with ([fl f] ++ map fl o2). rewrite app_assoc.
      destruct (IH s1 (D ++ [fl f]) s2 o2 G' R1) as (R2 & W2 & D2); auto.
      * eapply wfp_snoc; eauto.
      * intros N. rewrite N1 in N. apply orb_false_iff in N as [N KN]. apply negb_false_iff, inb_spec in KN.
        apply Forall_app. split; [auto|]. constructor; auto.
      * split; [exact R2|]. split; [exact W2|]. constructor; auto.
    + destruct ST as (A & R1 & N1 & BF).
      destruct (IH s1 D s' out G' R1 W) as (R2 & W2 & D2); auto.
      * intros N. apply NP. destruct (h_nopseudo s); auto. rewrite N1 in N; auto.
      * split; [exact R2|]. split; [exact W2|]. apply drops_drop; auto.
Qed.
Lemma req_complete sf ext l : forall s D, Forall good_field l -> rep s D ->
  h_nopseudo s = negb (forallb (fun f => knownb (fst f)) D) -> dwfp ext (D ++ map fl l) ->
  exists s', on_headers sf s l true false ext = (s', l, true) /\ rep s' (D ++ map fl l).
Proof.
  induction l as [|f l IH]; intros s D G R NP W; cbn [on_headers map].
  - exists s. rewrite app_nil_r in *. auto.
  - inversion G as [|? ? (T & Bn & Bv) G']; subst. rewrite on_header_req by auto.
    cbn [map] in W. change (fl f :: map fl l) with ([fl f] ++ map fl l) in *. rewrite app_assoc in *.
    pose proof (dwfp_prefix _ _ _ W) as W1. pose proof (dwfp_prefix _ _ _ W1) as W0.
    destruct (kreq sf s (q_name f) (q_value f) false ext) as [s1 r] eqn:K.
    pose proof (req_step _ _ _ _ _ _ _ _ Bn Bv R (dwfp_clen _ _ W0) K) as ST.
    assert (A : acc ext s D (q_name f) (q_value f)).
    { destruct W1 as [OK O1 O2]. split; [|split].
      - apply OK. apply in_or_app. right; left; reflexivity.
      - intros I. specialize (O2 _ I). apply at_most_snoc in O2. apply O2. reflexivity.
      - intros I. rewrite NP. apply negb_false_iff. apply forallb_forall. intros x J. apply inb_spec.
        destruct O1 as (P & Rr & E & FP & FR). destruct Rr as [|y Rr] using rev_ind.
        + rewrite app_nil_r in E. subst P. rewrite Forall_forall in FP. apply FP. apply in_or_app; auto.
        + rewrite app_assoc in E. apply app_inj_tail in E as [_ <-]. apply Forall_app in FR as [_ FR]. inversion FR as [|? ? X _]. subst.
          destruct (known_pseudo _ I X). }
    destruct r; cbn [step_spec] in ST; [|tauto|tauto].
    destruct ST as (_ & R1 & N1).
    destruct (IH s1 (D ++ [fl f]) G' R1) as (s2 & E2 & R2); auto.
    { rewrite N1, NP, forallb_app. cbn [forallb fl fst]. rewrite andb_true_r, negb_andb. reflexivity. }
    exists s2. rewrite E2. auto.
Qed.
Lemma someb_in p n D : someb p n D = true <-> exists v, In v (values n D) /\ p v = true.
Proof. unfold someb. apply existsb_exists. Qed.
Lemma someb_eq x n D : someb (fun v => beqb v x) n D = true <-> In x (values n D).
Proof.
  rewrite someb_in. split; [intros (v & I & E); apply beqb_spec in E; subst; auto|].
  intros I; exists x; rewrite beqb_refl; auto.
Qed.
Lemma once_in n D a b : at_most_once n D -> In a (values n D) -> In b (values n D) -> a = b.
Proof.
  unfold at_most_once. destruct (values n D) as [|x [|y r]]; cbn; [tauto| |lia]. intros _ [<-|[]] [<-|[]]. reflexivity.
Qed.
Lemma path_flags s D : rep s D -> at_most_once n_path D -> at_most_once n_scheme D -> present n_path D -> 
  check_path_flags s = true <->
  (forall sc p, In sc (values n_scheme D) -> In p (values n_path D) ->
    same_ci (bs "http") sc \/ same_ci (bs "https") sc ->
    (exists t, p = 47 :: t) \/ (p = bs "*" /\ In (bs "OPTIONS") (values n_method D))).
Proof.
  intros [] OP OS PP. unfold check_path_flags. rewrite r_http0, r_regular0, r_options0, r_asterisk0.
  destruct (someb (fun v => strieq SHTTP v || strieq SHTTPS v) n_scheme D) eqn:H; cbn [negb orb].
  - apply someb_in in H as (sc & IS & H). apply orb_true_iff in H. rewrite !strieq_spec in H.
    rewrite orb_true_iff, andb_true_iff, someb_in, !someb_eq. split.
    + intros K sc' p I J _. destruct K as [(w & Iw & E)|[K1 K2]].
      * left. assert (p = w) by (exact (once_in n_path D p w OP J Iw)). subst w. destruct p as [|c t]; [discriminate|]. cbn in E. apply Z.eqb_eq in E. subst. eauto.
      * right. split; [exact (once_in n_path D _ _ OP J K2)|exact K1].
    + intros K. destruct (present_ex _ _ PP) as (p & Ip). apply values_in in Ip.
      destruct (K sc p IS Ip H) as [(t & ->)|[-> O]].
      * left. exists (47 :: t). auto.
      * right. auto.
  - split; [|reflexivity]. intros _ sc p I J K. exfalso.
    assert (X : someb (fun v => strieq SHTTP v || strieq SHTTPS v) n_scheme D = true); [|congruence].
    apply someb_in. exists sc. split; [auto|]. apply orb_true_iff. rewrite !strieq_spec. exact K.
Qed.
Lemma conn_dec s D : rep s D -> (negb (h_protocol s) && h_connect s = true <-> plain_connect D).
Proof.
  intros []. rewrite r_protocol0, r_connect0, andb_true_iff, negb_true_iff, someb_eq, absentb_spec. reflexivity.
Qed.
Lemma req_finish s D ext : rep s D -> dwfp ext D ->
  (snd (on_request_headers s) = true <-> fin_req D) /\
  (plain_connect D -> snd (on_request_headers s) = true -> h_clen (fst (on_request_headers s)) = -1) /\
  (~ plain_connect D -> fst (on_request_headers s) = s).
Proof.
  intros R W. pose proof (conn_dec s D R) as CD. pose proof R as []. unfold on_request_headers, fin_req.
  destruct (negb (h_protocol s) && h_connect s) eqn:C.
  - assert (PC : plain_connect D) by tauto.
    rewrite r_scheme0, r_path0, r_authority0.
    destruct (presentb n_scheme D || presentb n_path D || negb (presentb n_authority D)) eqn:E; cbn [fst snd].
    + split; [|split; [intros _ X; discriminate|tauto]]. split; [discriminate|]. intros (F1 & _). specialize (F1 PC).
      destruct F1 as (A & B & P). apply absentb_spec in A, B. apply presentb_spec in P. rewrite A, B, P in E. discriminate.
    + split; [|split; [reflexivity|tauto]]. split; [|reflexivity]. intros _.
      rewrite !orb_false_iff, negb_false_iff, !absentb_spec, presentb_spec in E. destruct E as [[A B] P].
      split; [auto|]. split; [tauto|]. split.
      * intros X. destruct PC as [Y _]. unfold present, absent in *. congruence.
      * intros sc p I. rewrite A in I. destruct I.
  - assert (PC : ~ plain_connect D) by (rewrite <- CD; discriminate).
    assert (X : fst (if negb (h_method s && h_path s && h_scheme s) || negb (h_authority s || h_host s) then (s, false)
                else if h_protocol s && (negb (h_connect s) || negb (h_authority s)) then (s, false)
                else if negb (check_path_flags s) then (s, false) else (s, true)) = s).
    { repeat match goal with |- context [if ?b then _ else _] => destruct b end; reflexivity. }
    split; [|split; [tauto|intros _; exact X]]. clear X.
    destruct W as [OK O1 O2].
    assert (OP : at_most_once n_path D) by (apply O2; apply in_singles; exact I).
    assert (OS : at_most_once n_scheme D) by (apply O2; apply in_singles; exact I).
    pose proof (path_flags s D R OP OS) as PF.
    rewrite r_method0, r_path0, r_scheme0, r_authority0, r_host0, r_protocol0, r_connect0.
    destruct (presentb n_method D) eqn:PM; [|split; [discriminate|]; intros (_ & F & _); destruct (F PC) as (Y & _); apply presentb_spec in Y; congruence].
    destruct (presentb n_path D) eqn:PP; [|split; [discriminate|]; intros (_ & F & _); destruct (F PC) as (_ & _ & Y & _); apply presentb_spec in Y; congruence].
    destruct (presentb n_scheme D) eqn:PS; [|split; [discriminate|]; intros (_ & F & _); destruct (F PC) as (_ & Y & _); apply presentb_spec in Y; congruence].
    apply presentb_spec in PM, PP, PS. specialize (PF PP). cbn [andb negb orb].
    destruct (presentb n_authority D || presentb n_host D) eqn:PA; cbn [negb].
    2:{ split; [discriminate|]. intros (_ & F & _). destruct (F PC) as (_ & _ & _ & Y). rewrite <- !presentb_spec in Y. apply orb_true_iff in Y. congruence. }
    apply orb_true_iff in PA. rewrite !presentb_spec in PA.
    destruct (presentb n_protocol D) eqn:PR; cbn [andb].
    + apply presentb_spec in PR.
      destruct (someb (fun v => beqb v MCONNECT) n_method D) eqn:SC; cbn [negb orb].
      2:{ split; [discriminate|]. intros (_ & _ & F & _). destruct (F PR) as [Y _]. apply (someb_eq MCONNECT) in Y. congruence. }
      apply someb_eq in SC. destruct (presentb n_authority D) eqn:AA; cbn [negb].
      2:{ split; [discriminate|]. intros (_ & _ & F & _). destruct (F PR) as [_ Y]. apply presentb_spec in Y. congruence. }
      apply presentb_spec in AA.
      destruct (check_path_flags s); cbn [negb snd]; [|split; [discriminate|]; intros (_ & _ & _ & F); apply PF in F; discriminate].
      split; [|reflexivity]. intros _. split; [tauto|]. split; [tauto|]. split; [tauto|]. apply PF. reflexivity.
    + apply absentb_spec in PR.
      destruct (check_path_flags s); cbn [negb snd]; [|split; [discriminate|]; intros (_ & _ & _ & F); apply PF in F; discriminate].
      split; [|reflexivity]. intros _. split; [tauto|]. split; [tauto|]. split; [intros Y; contradiction|]. apply PF. reflexivity.
Qed.

Lemma accept_request_sound sf ext l s out : Forall good_field l ->
  accept_request sf ext l = Some (s, out) ->
  wf_request ext (map fl out) /\ drops (fun f => bad_field (fl f)) l out /\
  h_final s = false /\ h_recv s = 0 /\
  (plain_connect (map fl out) -> h_clen s = -1) /\ (~ plain_connect (map fl out) -> h_clen s = clen_of (map fl out)).
Proof.
  intros G. unfold accept_request. destruct (on_headers sf http_init l true false ext) as [[s0 o] ok] eqn:E.
  destruct ok; [|discriminate]. destruct (on_request_headers s0) as [s1 ok] eqn:F. destruct ok; [|discriminate].
  intros X. injection X as <- <-.
  destruct (req_sound sf ext l _ [] _ _ G rep_init (dwfp_nil ext) ltac:(constructor) E) as (R & W & Dr). cbn [app] in *.
  destruct (req_finish s0 (map fl o) ext R W) as (Q1 & Q2 & Q3). rewrite F in *. cbn [fst snd] in *.
  assert (FIN : s1 = s0 \/ s1 = hs_clen s0 (-1)).
  { revert F. unfold on_request_headers. repeat match goal with |- context [if ?b then _ else _] => destruct b end; intros X; inversion X; auto. }
  pose proof R as [].
  split; [apply wf_request_split; tauto|]. split; [exact Dr|].
  split; [destruct FIN as [-> | ->]; assumption|]. split; [destruct FIN as [-> | ->]; assumption|].
  split; [tauto|]. intros N. rewrite (Q3 N). assumption.
Qed.
Lemma accept_request_complete sf ext l : Forall good_field l ->
  wf_request ext (map fl l) -> exists s, accept_request sf ext l = Some (s, l).
Proof.
  intros G WF. apply wf_request_split in WF as [W F].
  destruct (req_complete sf ext l http_init [] G rep_init eq_refl W) as (s & E & R). cbn [app] in R.
  destruct (req_finish s (map fl l) ext R W) as (Q1 & _). unfold accept_request. rewrite E.
  destruct (on_request_headers s) as [s1 ok]. cbn [snd] in Q1. apply Q1 in F. subst ok. eauto.
Qed.

(* ---------------- responses ---------------- *)
Definition forbc (connect : bool) (c : Z) : Prop := c / 100 = 1 \/ c = 204 \/ (c / 100 = 2 /\ connect = true).
Definition fokr (n v : list Z) : Prop :=
  match kind_of n with
  | KStatus => number v /\ zlen v = 3 /\ 100 <= num v /\ num v <> 101
  | KClen => number v /\ num v <= max_varint
  | KTe => same_ci (bs "trailers") v
  | KHost | KPriority | KOther => name_ok n /\ value_ok v
  | _ => False
  end.
Definition known_res := [n_status].
Definition singles_res := [n_status; n_clen].
Definition dwfr (connect : bool) (l : fields) : Prop :=
  wfp known_res singles_res fokr l /\ (clen_forbidden connect l -> absent n_clen l).
Lemma num3 v : number v -> zlen v = 3 -> num v <= 999.
Proof.
  intros [_ F] L. destruct v as [|a [|b [|c [|d v]]]]; unfold zlen in L; cbn [length] in L; try lia.
  inversion F as [|? ? A F1]; subst. inversion F1 as [|? ? B F2]; subst. inversion F2 as [|? ? C F3]; subst.
  unfold num, fold_left, digit, between in *. lia.
Qed.
Lemma fokr_value n v : fokr n v -> value_ok v.
Proof.
  unfold fokr. destruct (kind_of n); try contradiction; try tauto.
  - intros [F _]. apply visible_ok, number_visible; auto.
  - intros [F _]. apply visible_ok, number_visible; auto.
  - intros F. apply visible_ok, trailers_visible; auto.
Qed.
Lemma status_once l : wfp known_res singles_res fokr l -> at_most_once n_status l.
Proof. intros [_ _ O]. apply O. left; reflexivity. Qed.
Lemma wf_response_split connect l : wf_response connect l <-> dwfr connect l /\ present n_status l.
Proof.
  split.
  - intros [[CO CN CV CC CT CL1 CL2] (v0 & S1 & S2) RC]. rewrite values_forall in CT, CL2. rewrite Forall_forall in CV.
    split; [|unfold present; rewrite S1; discriminate]. split.
    + constructor.
      * intros n v I. specialize (CV _ I). cbn [snd] in CV. 
        assert (NM : forall t, n = 58 :: t -> n = n_status).
        { intros t ->. destruct (ordered_in _ _ _ _ CO I) as [[J|[]]|J]; [auto|destruct (colon_not_tchar _ J)]. }
        assert (NK : n <> n_status -> name_ok n).
        { intros N. destruct (ordered_in _ _ _ _ CO I) as [[J|[]]|J]; [congruence|auto]. }
        unfold fokr. destruct (kind_of n) eqn:K; try (kname K; specialize (NM _ eq_refl); discriminate NM); auto.
        -- kname K. apply values_in in I. rewrite S1 in I. destruct I as [<-|[]]. exact S2.
        -- kname K. split; [|exact CV]. apply NK. discriminate.
        -- kname K. auto.
        -- apply kind_of_conn in K. specialize (CC n K). apply absent_spec with (v := v) in CC. auto.
        -- kname K. auto.
        -- kname K. split; [|exact CV]. apply NK. discriminate.
        -- destruct n as [|c n]; [destruct (NK ltac:(discriminate)) as [X _]; congruence|].
           revert K. unfold kind_of. repeat match goal with |- context [if ?b then _ else _] => destruct b; [discriminate|] end. discriminate.
        -- destruct n as [|c n]; [vm_compute in K; discriminate|]. revert K. unfold kind_of.
           repeat match goal with |- context [if beqb ?a ?b then _ else _] => destruct (beqb a b) eqn:?; [discriminate|] end.
           destruct (inb (c :: n) conn_specific); [discriminate|].
           repeat match goal with |- context [if beqb ?a ?b then _ else _] => destruct (beqb a b) eqn:?; [discriminate|] end.
           destruct (c =? 58) eqn:C; [|discriminate]. apply Z.eqb_eq in C. subst c. intros _.
           specialize (NM _ eq_refl). assert (X : beqb (58 :: n) n_status = true) by (apply beqb_spec; auto). congruence.
        -- split; [|exact CV]. apply NK. intros ->. vm_compute in K. discriminate.
      * exact CO.
      * intros n [<-|[<-|[]]]; auto. apply CN. left; reflexivity.
    + intros (v & I & F). eapply RC; eauto.
  - intros [[[OK O1 O2] CF] PR].
    assert (V : forall n v, In (n, v) l -> value_ok v) by (intros n v I; eapply fokr_value; eauto).
    constructor.
    + constructor.
      * exact O1.
      * intros n [<-|[]]. apply O2. left; reflexivity.
      * apply Forall_forall. intros [n v] I. exact (V _ _ I).
      * intros n I. apply absent_spec. intros v J. specialize (OK _ _ J). unfold fokr in OK. rewrite (kind_conn n I) in OK. exact OK.
      * rewrite values_forall; intros v I; exact (OK _ _ I).
      * apply O2. right; left; reflexivity.
      * rewrite values_forall; intros v I; exact (OK _ _ I).
    + specialize (O2 n_status (or_introl eq_refl)). unfold at_most_once in O2. unfold present in PR.
      destruct (values n_status l) as [|v [|w r]] eqn:E; [congruence| |cbn in O2; lia]. exists v. split; [reflexivity|].
      assert (I : In (n_status, v) l) by (apply values_in; rewrite E; left; reflexivity). exact (OK _ _ I).
    + intros v I F. apply CF. exists v. auto.
Qed.

Definition code_of (D : fields) : Z := match values n_status D with [] => -1 | v :: _ => num v end.
Record repr (connect head : bool) (recv : Z) (s : http) (D : fields) : Prop := {
  q_status : h_status s = presentb n_status D;
  q_code : h_code s = code_of D;
  q_clen : h_code s <> 204 -> h_clen s = clen_of D;
  q_connect : h_connect s = connect;
  q_head : h_head s = head;
  q_recv : h_recv s = recv }.
Definition accr (connect : bool) (s : http) (D : fields) (n v : list Z) : Prop :=
  fokr n v /\ (In n singles_res -> absent n D) /\ (In n known_res -> h_nopseudo s = false) /\
  (n = n_clen -> ~ clen_forbidden connect D).
Lemma repr_same c h r s s' D : repr c h r s D ->
  h_status s' = h_status s -> h_code s' = h_code s -> h_clen s' = h_clen s -> h_connect s' = h_connect s ->
  h_head s' = h_head s -> h_recv s' = h_recv s -> repr c h r s' D.
Proof. intros [] **. constructor; try congruence. intros N. rewrite H1. apply q_clen0. congruence. Qed.
Lemma code_snoc D m v : code_of (D ++ [(m, v)]) = if negb (presentb n_status D) && beqb m n_status then num v else code_of D.
Proof. unfold code_of, presentb. rewrite values_snoc. destruct (values n_status D), (beqb m n_status); reflexivity. Qed.
Lemma repr_other c h r s s' D n v : repr c h r s D ->
  match kind_of n with KTe | KPriority | KOther | KHost => True | _ => False end ->
  h_status s' = h_status s -> h_code s' = h_code s -> h_clen s' = h_clen s -> h_connect s' = h_connect s ->
  h_head s' = h_head s -> h_recv s' = h_recv s -> repr c h r s' (D ++ [(n, v)]).
Proof.
  intros [] K. intros.
  assert (NE : forall m, match kind_of m with KTe | KPriority | KOther | KHost => False | _ => True end -> beqb n m = false).
  { intros m HH. destruct (beqb n m) eqn:E; auto. apply beqb_spec in E. subst m. destruct (kind_of n); contradiction. }
  constructor; rewrite ?presentb_snoc, ?code_snoc, ?clen_snoc, ?NE by (vm_compute; exact I);
    rewrite ?andb_false_l, ?andb_false_r, ?orb_false_r; try congruence.
  rewrite H0, H1. auto.
Qed.
Definition bad_res (connect : bool) (D : fields) (f : list Z * list Z) : Prop :=
  bad_field f \/ (fst f = n_clen /\ clen_forbidden connect D).

Lemma code_forb connect D : (forall v, In (n_status, v) D -> number v) -> at_most_once n_status D ->
  (clen_forbidden connect D <->
   code_of D = 204 \/ Z.quot (code_of D) 100 = 1 \/ (Z.quot (code_of D) 100 = 2 /\ connect = true)).
Proof.
  intros NN ON. unfold clen_forbidden, code_of, at_most_once in *. destruct (values n_status D) as [|v r] eqn:E.
  - split; [intros (v & [] & _)|]. replace (Z.quot (-1) 100) with 0 by reflexivity. lia.
  - assert (r = []) by (destruct r; auto; cbn in ON; lia). subst r.
    assert (N : number v) by (apply NN; apply values_in; rewrite E; left; reflexivity).
    assert (0 <= num v). { destruct N as [_ F]. exact (num_from_ge v 0 ltac:(lia) F). }
    rewrite Z.quot_div_nonneg by lia. split.
    + intros (w & [<-|[]] & K). tauto.
    + intros K. exists v. split; [left; reflexivity|]. tauto.
Qed.
Lemma res_step connect head recv s D n v s' r : bytes n -> bytes v -> repr connect head recv s D ->
  dwfr connect D -> (h_nopseudo s = false -> Forall (fun f => In (fst f) known_res) D) ->
  kres s n v false = (s', r) ->
  step_spec (accr connect s D n v)
    (repr connect head recv s' (D ++ [(n, v)]) /\ h_nopseudo s' = h_nopseudo s || negb (inb n known_res))
    (repr connect head recv s' D /\ (h_nopseudo s = true -> h_nopseudo s' = true) /\ bad_res connect D (n, v)) r.
Proof.
  intros Bn Bv R [[OK O1 O2] CF] NP. unfold kres.
  assert (PSEUDO : forall A B, match kind_of n with KAuthority | KMethod | KPath | KScheme | KProtocol | KPseudo | KConn => True | _ => False end ->
     step_spec (accr connect s D n v) A B HBad).
  { intros A B H. cbn. intros (F & _). unfold fokr in F. destruct (kind_of n); contradiction. }
  assert (REG : match kind_of n with KHost | KPriority | KOther => True | _ => False end -> n <> [] -> ~ pseudo n ->
    regular_step s n v = (s', r) ->
    step_spec (accr connect s D n v)
      (repr connect head recv s' (D ++ [(n, v)]) /\ h_nopseudo s' = h_nopseudo s || negb (inb n known_res))
      (repr connect head recv s' D /\ (h_nopseudo s = true -> h_nopseudo s' = true) /\ bad_res connect D (n, v)) r).
  { intros K NN NPs. unfold regular_step. intros E.
    assert (NS1 : n <> n_status) by (intros ->; vm_compute in K; contradiction).
    assert (NS2 : n <> n_clen) by (intros ->; vm_compute in K; contradiction).
    assert (KN : inb n known_res = false) by (destruct (inb n known_res) eqn:X; auto; apply inb_spec in X; destruct X as [X|[]]; congruence).
    assert (FK : fokr n v <-> name_ok n /\ value_ok v) by (unfold fokr; destruct (kind_of n); try contradiction; tauto).
    pose proof (check_name_spec n Bn) as NS. cbn zeta in E.
    destruct (check_name_range n Bn) as [X|[X|X]]; rewrite X in E, NS; cbn [Z.eqb] in E.
    + destruct (check_header_value v) eqn:C; cbn [negb] in E; injection E as <- <-; cbn [step_spec].
      * apply check_value_spec in C; auto. split.
        -- split; [apply FK; split; [split; [exact NN|tauto]|exact C]|].
           split; [intros [Y|[Y|[]]]; congruence|]. split; [intros [Y|[]]; congruence|congruence].
        -- rewrite KN. cbn [negb]. rewrite orb_true_r. split; [|reflexivity]. eapply repr_other; eauto. destruct (kind_of n); try contradiction; exact I.
      * assert (N : ~ value_ok v) by (rewrite <- check_value_spec by auto; congruence).
        split; [intros (F & _); tauto|].
        split; [eapply repr_same; eauto|]. split; [reflexivity|]. left; right; left. exact N.
    + assert (N : ~ name_ok n) by (intros [_ F]; apply NS in F; discriminate).
      injection E as <- <-. cbn [step_spec]. split; [intros (F & _); tauto|].
      split; [eapply repr_same; eauto|]. split; [reflexivity|]. left; left. auto.
    + injection E as <- <-. cbn [step_spec]. intros (F & _). apply FK in F as [[_ F] _]. apply NS in F. discriminate. }
  assert (SN : forall w, In (n_status, w) D -> number w) by (intros w I; exact (proj1 (OK _ _ I))).
  assert (SO : at_most_once n_status D) by (apply O2; left; reflexivity).
  pose proof (code_forb connect D SN SO) as CFB.
  destruct (kind_of n) eqn:K; try (intros E; injection E as <- <-; apply PSEUDO; exact I).
  - (* :status *) kname K. pose proof R as []. cbn [orb]. destruct (h_nopseudo s) eqn:N.
    { intros E; injection E as <- <-. cbn [step_spec]. intros (_ & _ & A & _). specialize (A (or_introl eq_refl)). congruence. }
    rewrite q_status0.
    destruct (presentb n_status D) eqn:PS; cbn [orb].
    { intros E; injection E as <- <-. cbn [step_spec]. intros (_ & A & _). specialize (A (or_introl eq_refl)). apply absentb_spec in A. congruence. }
    destruct (is_nil v) eqn:NV.
    { intros E; injection E as <- <-. cbn [step_spec]. intros ((_ & A & _) & _). destruct v; [unfold zlen in A; cbn in A; lia|discriminate]. }
    destruct (zlen v =? 3) eqn:L3; cbn [negb]; [apply Z.eqb_eq in L3|apply Z.eqb_neq in L3].
    2:{ intros E; injection E as <- <-. cbn [step_spec]. intros ((_ & A & _) & _). contradiction. }
    destruct (parse_uint_spec v) as [[P NN]|(P & NN & Rg)]; rewrite P.
    { intros E; injection E as <- <-. cbn. intros ((A & B & _) & _). apply NN. split; auto. pose proof (num3 v A B). unfold max_varint. lia. }
    intros E. destruct ((num v <? 100) || (num v =? 101)) eqn:C; injection E as <- <-; cbn [step_spec].
    { intros ((_ & _ & A & B) & _). lia. }
    split.
    + split; [unfold fokr; rewrite K; split; [exact NN|]; split; [exact L3|]; lia|]. split; [intros [_|[Y|[]]]; [apply absentb_spec; auto|discriminate Y]|].
      split; [auto|discriminate].
    + cbn [h_nopseudo hs_status]. rewrite N. split; [|reflexivity].
      (* no other field precedes *)
      specialize (NP eq_refl). assert (D = []).
      { destruct D as [|[a b] D]; auto. inversion NP as [|? ? [X|[]] _]. cbn in X. subst a.
        unfold presentb in PS. unfold values in PS. cbn [filter fst] in PS. destruct (list_eq_dec Z.eq_dec n_status n_status); [discriminate|congruence]. }
      subst D. constructor; cbn [hs_status h_status h_code h_clen h_connect h_head h_recv app]; auto.
      * intros _. rewrite q_clen0; [reflexivity|]. rewrite q_code0. vm_compute. discriminate.
  - (* host *) kname K. apply REG; [exact I|discriminate|intros (t & X); discriminate].
  - (* content-length *) kname K. pose proof R as []. rewrite q_code0, q_connect0.
    pose proof (clen_absent D (fun w I => OK _ _ I)) as CA.
    destruct (code_of D =? 204) eqn:C204; [apply Z.eqb_eq in C204|apply Z.eqb_neq in C204].
    { assert (F : clen_forbidden connect D) by tauto.
      destruct (negb (h_clen s =? -1) || negb (strieq [48] v)) eqn:B; intros E; injection E as <- <-; cbn [step_spec].
      - intros (_ & _ & _ & A). tauto.
      - split; [intros (_ & _ & _ & A); tauto|]. split; [constructor; auto; cbn [hs_clen hs_nopseudo h_code]; intros X; congruence|].
        split; [reflexivity|]. right. auto. }
    destruct ((Z.quot (code_of D) 100 =? 1) || ((Z.quot (code_of D) 100 =? 2) && connect)) eqn:B.
    { intros E; injection E as <- <-; cbn [step_spec].
      assert (F : clen_forbidden connect D).
      { apply CFB. apply orb_true_iff in B as [B|B]; [apply Z.eqb_eq in B; tauto|]. apply andb_true_iff in B as [B1 B2]. apply Z.eqb_eq in B1. tauto. }
      split; [intros (_ & _ & _ & A); tauto|]. split; [eapply repr_same; eauto|]. split; [reflexivity|]. right. auto. }
    assert (NF : ~ clen_forbidden connect D).
    { intros F. apply CFB in F. apply orb_false_iff in B as [B1 B2]. apply Z.eqb_neq in B1. apply andb_false_iff in B2.
      rewrite Z.eqb_neq in B2. destruct F as [F|[F|[F1 F2]]]; [auto|auto|]. destruct B2; congruence. }
    rewrite q_clen0 by congruence. 
    destruct (clen_of D =? -1) eqn:C; cbn [negb]; [apply Z.eqb_eq in C|apply Z.eqb_neq in C].
    + apply CA in C. destruct (parse_uint_spec v) as [[P N]|(P & N & Rg)]; rewrite P.
      * intros E; injection E as <- <-. cbn. intros (F & _). contradiction.
      * destruct (num v =? -1) eqn:M; [lia|]. intros E; injection E as <- <-. cbn [step_spec]. split.
        -- split; [split; [assumption|lia]|]. split; [auto|]. split; [intros [X|[]]; discriminate X|auto].
        -- assert (A : presentb n_clen D = false) by (apply absentb_spec; auto). split.
           ++ constructor; cbn [hs_clen hs_nopseudo h_status h_code h_clen h_connect h_head h_recv];
                rewrite ?presentb_snoc, ?code_snoc, ?clen_snoc, ?A, ?andb_false_r; auto.
              ** change (beqb n_clen n_status) with false. rewrite orb_false_r. auto.
           ++ change (inb n_clen known_res) with false. cbn. rewrite orb_true_r. reflexivity.
    + intros E; injection E as <- <-. cbn [step_spec]. intros (_ & A & _). specialize (A (or_intror (or_introl eq_refl))). tauto.
  - (* te *) kname K. intros E. destruct (strieq STRAILERS v) eqn:T; injection E as <- <-; cbn [step_spec].
    + apply strieq_spec in T. split.
      * split; [exact T|]. split; [intros [X|[X|[]]]; discriminate X|]. split; [intros [X|[]]; discriminate X|discriminate].
      * split; [|change (inb n_te known_res) with false; cbn; rewrite orb_true_r; reflexivity].
        eapply repr_other; eauto. exact I.
    + intros (F & _). unfold fokr in F; rewrite K in F. apply strieq_spec in F. change (bs "trailers") with STRAILERS in F. congruence.
  - (* priority *) kname K. apply REG; [exact I|discriminate|intros (t & X); discriminate].
  - (* empty *) assert (N : n = []).
    { destruct n; auto. revert K. unfold kind_of.
      repeat match goal with |- context [if ?b then _ else _] => destruct b; [discriminate|] end. discriminate. }
    subst n. intros E; injection E as <- <-. cbn [step_spec]. split; [intros (F & _); exact F|].
    split; [eapply repr_same; eauto|]. split; [reflexivity|]. left; left. split; [intros (t & X); discriminate|]. intros [X _]. apply X; reflexivity.
  - (* other *) apply REG; [exact I|intros ->; vm_compute in K; discriminate|].
    intros (t & ->). revert K. unfold kind_of.
    repeat match goal with |- context [if beqb ?a ?b then _ else _] => destruct (beqb a b); [discriminate|] end.
    destruct (inb (58 :: t) conn_specific); [discriminate|].
    repeat match goal with |- context [if beqb ?a ?b then _ else _] => destruct (beqb a b); [discriminate|] end. discriminate.
Qed.
