(* HTTP message rules, written from RFC 9110, RFC 9114 section 4, RFC 9220 and RFC 3986
   (not from the code).  Fields are (name, value) pairs of byte strings. *)
From Coq Require Import String.
From Verif Require Import Base QpackTabModel QpackTabSpec.

Definition fields := list (list Z * list Z).
Definition values (n : list Z) (l : fields) : list (list Z) :=
  map snd (filter (fun f => if list_eq_dec Z.eq_dec (fst f) n then true else false) l).
Definition present (n : list Z) (l : fields) : Prop := values n l <> [].
Definition absent (n : list Z) (l : fields) : Prop := values n l = [].
Definition at_most_once (n : list Z) (l : fields) : Prop := (length (values n l) <= 1)%nat.

Definition between (a c b : Z) : Prop := a <= c <= b.
Definition lc_alpha (c : Z) : Prop := between 97 c 122.
Definition uc_alpha (c : Z) : Prop := between 65 c 90.
Definition digit (c : Z) : Prop := between 48 c 57.
(* RFC 9110 5.6.2: token characters *)
Definition tchar (c : Z) : Prop := In c (bs "!#$%&'*+-.^_`|~") \/ digit c \/ lc_alpha c \/ uc_alpha c.
(* RFC 9114 4.2: field names are tokens without upper-case letters *)
Definition name_ok (n : list Z) : Prop := n <> [] /\ Forall (fun c => tchar c /\ ~ uc_alpha c) n.
Definition pseudo (n : list Z) : Prop := exists t, n = 58 :: t.
(* RFC 9110 5.5: visible characters, obs-text, and SP / HTAB inside *)
Definition blank (c : Z) : Prop := c = 32 \/ c = 9.
Definition value_ok (v : list Z) : Prop :=
  Forall (fun c => c = 9 \/ between 32 c 126 \/ between 128 c 255) v /\
  (forall c t, v = c :: t -> ~ blank c) /\ (forall c t, v = t ++ [c] -> ~ blank c).
(* RFC 3986 3.2: authority without user information *)
Definition authority_char (c : Z) : Prop :=
  lc_alpha c \/ uc_alpha c \/ digit c \/ In c (bs "-._~" ++ bs "!$&'()*+,;=" ++ bs ":[]%").
(* RFC 3986 3.1 *)
Definition scheme_ok (v : list Z) : Prop :=
  exists c t, v = c :: t /\ (lc_alpha c \/ uc_alpha c) /\
    Forall (fun c => lc_alpha c \/ uc_alpha c \/ digit c \/ In c (bs "+-.")) t.
(* visible characters and obs-text *)
Definition path_char (c : Z) : Prop := between 33 c 126 \/ between 128 c 255.
Definition lc (c : Z) : Z := if (65 <=? c) && (c <=? 90) then c + 32 else c.
Definition same_ci (a v : list Z) : Prop := map lc v = a.  (* [a] is in lower case *)
(* decimal numbers *)
Definition number (v : list Z) : Prop := v <> [] /\ Forall digit v.
Definition num (v : list Z) : Z := fold_left (fun a c => 10 * a + (c - 48)) v 0.

Definition n_method := bs ":method".  Definition n_scheme := bs ":scheme".
Definition n_authority := bs ":authority".  Definition n_path := bs ":path".
Definition n_protocol := bs ":protocol".  Definition n_status := bs ":status".
Definition n_host := bs "host".  Definition n_clen := bs "content-length".  Definition n_te := bs "te".
Definition conn_specific : list (list Z) :=
  map bs ["connection"; "keep-alive"; "proxy-connection"; "transfer-encoding"; "upgrade"]%string.

(* rules common to requests and responses (and trailers) *)
Record wf_common (known : list (list Z)) (l : fields) : Prop := {
  wf_order : exists P R, l = P ++ R /\ Forall (fun f => In (fst f) known) P /\
                         Forall (fun f => name_ok (fst f)) R;
  wf_once : forall n, In n known -> at_most_once n l;
  wf_values : Forall (fun f => value_ok (snd f)) l;
  wf_conn : forall n, In n conn_specific -> absent n l;
  wf_te : Forall (same_ci (bs "trailers")) (values n_te l);
  wf_clen_once : at_most_once n_clen l;
  wf_clen : Forall (fun v => number v /\ num v <= max_varint) (values n_clen l)
}.
Definition plain_connect (l : fields) : Prop :=
  absent n_protocol l /\ In (bs "CONNECT") (values n_method l).
(* [ext]: the server enabled the extended CONNECT method *)
Record wf_request (ext : bool) (l : fields) : Prop := {
  rq_common : wf_common [n_method; n_scheme; n_authority; n_path; n_protocol] l;
  rq_method : Forall (fun v => v <> [] /\ Forall tchar v) (values n_method l);
  rq_scheme : Forall scheme_ok (values n_scheme l);
  rq_authority : Forall (fun v => v <> [] /\ Forall authority_char v) (values n_authority l);
  rq_path : Forall (fun v => v <> [] /\ Forall path_char v) (values n_path l);
  rq_host : at_most_once n_host l /\ Forall (fun v => v <> [] /\ Forall authority_char v) (values n_host l);
  rq_protocol : Forall (fun v => v <> []) (values n_protocol l);
  (* RFC 9114 4.4: CONNECT *)
  rq_connect : plain_connect l -> absent n_scheme l /\ absent n_path l /\ present n_authority l;
  (* RFC 9114 4.3.1 *)
  rq_mandatory : ~ plain_connect l ->
    present n_method l /\ present n_scheme l /\ present n_path l /\ (present n_authority l \/ present n_host l);
  (* RFC 9220 *)
  rq_extended : present n_protocol l ->
    ext = true /\ In (bs "CONNECT") (values n_method l) /\ present n_authority l;
  rq_path_form : forall s p, In s (values n_scheme l) -> In p (values n_path l) ->
    same_ci (bs "http") s \/ same_ci (bs "https") s ->
    (exists t, p = 47 :: t) \/ (p = bs "*" /\ In (bs "OPTIONS") (values n_method l))
}.
(* [connect]: this is the response to a CONNECT request *)
Record wf_response (connect : bool) (l : fields) : Prop := {
  rs_common : wf_common [n_status] l;
  rs_status : exists v, values n_status l = [v] /\ number v /\ zlen v = 3 /\ 100 <= num v /\ num v <> 101;
  rs_clen : forall v, In v (values n_status l) ->
    num v / 100 = 1 \/ num v = 204 \/ (num v / 100 = 2 /\ connect = true) -> absent n_clen l
}.
Record wf_trailers (l : fields) : Prop := {
  tr_common : wf_common [] l;
  tr_clen : absent n_clen l
}.

(* [out] is [l] without some elements, each of which is [bad] *)
Inductive drops {A} (bad : A -> Prop) : list A -> list A -> Prop :=
| drops_nil : drops bad [] []
| drops_keep x l o : drops bad l o -> drops bad (x :: l) (x :: o)
| drops_drop x l o : bad x -> drops bad l o -> drops bad (x :: l) o.
(* fields a receiver may discard: an invalid name (not of a pseudo-header), an invalid value,
   a host that is no authority *)
Definition bad_field (f : list Z * list Z) : Prop :=
  (~ pseudo (fst f) /\ ~ name_ok (fst f)) \/ ~ value_ok (snd f) \/
  (fst f = n_host /\ ~ Forall authority_char (snd f)).
(* statuses for which a content-length is not allowed: informational, 204, and successful
   answers to CONNECT *)
Definition clen_forbidden (connect : bool) (l : fields) : Prop :=
  exists v, In v (values n_status l) /\ (num v / 100 = 1 \/ num v = 204 \/ (num v / 100 = 2 /\ connect = true)).
Definition status_is (l : fields) (p : Z -> Prop) : Prop := exists v, values n_status l = [v] /\ p (num v).
Definition informational (l : fields) : Prop := status_is l (fun c => c / 100 = 1).

(* the method of the request an application submits: that of its first :method field *)
Fixpoint first_method (l : list nv) : option (list Z) :=
  match l with
  | [] => None
  | f :: l' => if beqb (nv_name f) n_method then Some (nv_value f) else first_method l'
  end.
Definition method_is (m : list Z) (l : list nv) : bool :=
  match first_method l with Some v => beqb v m | None => false end.
Definition zsum (ns : list Z) : Z := fold_right Z.add 0 ns.
