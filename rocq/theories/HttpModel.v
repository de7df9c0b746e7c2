(* Model of lib/nghttp3_http.c: validation of header fields and of messages. *)
From Verif Require Import Base Tables QpackTabModel.

(* ---- character tables (Tables.v, generated from the source) ---- *)
Definition in_tbl (t : list Z) (c : Z) : bool := negb (nth (Z.to_nat c) t 0 =? 0).

(* lib/nghttp3_http.c:41-43 downcase *)
Definition lower (c : Z) : Z := if (65 <=? c) && (c <=? 90) then c - 65 + 97 else c.
(* lib/nghttp3_http.c:50-62 memieq, lstrieq: [a] is a literal without upper-case letters *)
Definition strieq (a b : list Z) : bool := beqb a (map lower b).

(* lib/nghttp3_http.c:64-84 parse_uint; -1 is failure.  [n] is the int64_t accumulator. *)
Fixpoint parse_uint_loop (s : list Z) (n : Z) : Z :=
  match s with
  | [] => n
  | c :: s' =>
    if (48 <=? c) && (c <=? 57) then
      if n >? max_varint / 10 then -1
      else let n := n * 10 in
        if n >? max_varint - (c - 48) then -1
        else parse_uint_loop s' (n + (c - 48))
    else -1
  end.
Definition parse_uint (s : list Z) : Z := match s with [] => -1 | _ => parse_uint_loop s 0 end.

(* lib/nghttp3_http.c:112-120 is_ws *)
Definition is_ws (c : Z) : bool := (c =? 32) || (c =? 9).

(* lib/nghttp3_http.c:264-273 check_authority, 275-299 check_scheme, 369-381 check_method,
   433-442 check_path *)
Definition check_authority (v : list Z) : bool := forallb (in_tbl valid_authority_chars) v.
Definition is_alpha (c : Z) : bool := ((65 <=? c) && (c <=? 90)) || ((97 <=? c) && (c <=? 122)).
Definition is_scheme_char (c : Z) : bool :=
  is_alpha c || ((48 <=? c) && (c <=? 57)) || (c =? 43) || (c =? 45) || (c =? 46).
Definition check_scheme (v : list Z) : bool :=
  match v with [] => false | c :: v' => is_alpha c && forallb is_scheme_char v' end.
Definition check_method (v : list Z) : bool :=
  match v with [] => false | _ => forallb (in_tbl valid_method_chars) v end.
Definition check_path (v : list Z) : bool := forallb (in_tbl valid_path_chars) v.

(* lib/nghttp3_http.c:851-871 nghttp3_check_header_name (public API) *)
Definition check_header_name (name : list Z) : bool :=
  match name with
  | [] => false
  | c :: name' =>
    if c =? 58 then match name' with [] => false | _ => forallb (in_tbl valid_hd_name_chars) name' end
    else forallb (in_tbl valid_hd_name_chars) name
  end.
(* lib/nghttp3_http.c:873-888 http_check_nonempty_header_name: 1, 0 or -1 *)
Fixpoint check_nonempty_header_name (name : list Z) : Z :=
  match name with
  | [] => 1
  | c :: name' => let rv := nth (Z.to_nat c) valid_hd_name_chars 0 in
                  if negb (rv =? 1) then rv else check_nonempty_header_name name'
  end.
(* lib/nghttp3_http.c:986-1028 nghttp3_check_header_value (public API), the build without
   AVX2: the vector code tests 32 bytes at a time for the same set of characters *)
Definition check_header_value (v : list Z) : bool :=
  match v with
  | [] => true
  | c :: _ => negb (is_ws c || is_ws (last v 0)) && forallb (in_tbl valid_hd_value_chars) v
  end.

(* ---- priorities ---- *)
(* nghttp3_pri, lib/includes/nghttp3/nghttp3.h: urgency and inc *)
Record pri := mk_pri { p_urg : Z; p_inc : Z }.
Definition DEFAULT_URGENCY : Z := 3.   (* nghttp3.h NGHTTP3_DEFAULT_URGENCY *)
Definition URGENCY_LOW : Z := 7.       (* NGHTTP3_URGENCY_LOW; URGENCY_HIGH is 0 *)
(* The structured-field dictionary parser (lib/sfparse, not part of this repository) is an
   arbitrary function: the items it returns in order and whether it then reports the end
   (true) or an error (false). *)
Inductive sfval := SfBool (b : bool) | SfInt (n : Z) | SfOther.
Definition sfparser := list Z -> list (list Z * sfval) * bool.
(* lib/nghttp3_http.c:122-168 nghttp3_http_parse_priority *)
Fixpoint parse_pri_items (l : list (list Z * sfval)) (p : pri) : option pri :=
  match l with
  | [] => Some p
  | ([105], v) :: l' => (* 'i' *)
    match v with
    | SfBool b => parse_pri_items l' (mk_pri (p_urg p) (if b then 1 else 0))
    | _ => None
    end
  | ([117], v) :: l' => (* 'u' *)
    match v with
    | SfInt n => if (n <? 0) || (URGENCY_LOW <? n) then None
                 else parse_pri_items l' (mk_pri n (p_inc p))
    | _ => None
    end
  | _ :: l' => parse_pri_items l' p
  end.
Definition parse_priority (sf : sfparser) (p : pri) (v : list Z) : option pri :=
  let (items, eof) := sf v in
  match parse_pri_items items p with
  | Some p' => if eof then Some p' else None
  | None => None
  end.

(* ---- nghttp3_http_state, lib/nghttp3_stream.h; each bit of flags is a boolean
   (lib/nghttp3_http.h:41-83) ---- *)
Record http := mk_http {
  h_authority : bool; h_path : bool; h_method : bool; h_scheme : bool; h_host : bool;
  h_status : bool; h_protocol : bool;          (* seen *)
  h_nopseudo : bool;                           (* PSEUDO_HEADER_DISALLOWED *)
  h_connect : bool; h_head : bool; h_options : bool;   (* METH_* *)
  h_regular : bool; h_asterisk : bool;         (* PATH_* *)
  h_http : bool;                               (* SCHEME_HTTP *)
  h_final : bool;                              (* EXPECT_FINAL_RESPONSE *)
  h_prio : bool; h_badprio : bool;             (* PRIORITY, BAD_PRIORITY *)
  h_pri : pri; h_code : Z; h_clen : Z; h_recv : Z }.
(* lib/nghttp3_stream.c:49-87 nghttp3_stream_new *)
Definition http_init : http :=
  mk_http false false false false false false false false false false false false false false
          false false false (mk_pri DEFAULT_URGENCY 0) (-1) (-1) 0.

Definition hs_authority s := mk_http true (h_path s) (h_method s) (h_scheme s) (h_host s) (h_status s) (h_protocol s) (h_nopseudo s) (h_connect s) (h_head s) (h_options s) (h_regular s) (h_asterisk s) (h_http s) (h_final s) (h_prio s) (h_badprio s) (h_pri s) (h_code s) (h_clen s) (h_recv s).
Definition hs_path s r a := mk_http (h_authority s) true (h_method s) (h_scheme s) (h_host s) (h_status s) (h_protocol s) (h_nopseudo s) (h_connect s) (h_head s) (h_options s) (h_regular s || r) (h_asterisk s || a) (h_http s) (h_final s) (h_prio s) (h_badprio s) (h_pri s) (h_code s) (h_clen s) (h_recv s).
Definition hs_method s c h o := mk_http (h_authority s) (h_path s) true (h_scheme s) (h_host s) (h_status s) (h_protocol s) (h_nopseudo s) (h_connect s || c) (h_head s || h) (h_options s || o) (h_regular s) (h_asterisk s) (h_http s) (h_final s) (h_prio s) (h_badprio s) (h_pri s) (h_code s) (h_clen s) (h_recv s).
Definition hs_scheme s h := mk_http (h_authority s) (h_path s) (h_method s) true (h_host s) (h_status s) (h_protocol s) (h_nopseudo s) (h_connect s) (h_head s) (h_options s) (h_regular s) (h_asterisk s) (h_http s || h) (h_final s) (h_prio s) (h_badprio s) (h_pri s) (h_code s) (h_clen s) (h_recv s).
Definition hs_host s := mk_http (h_authority s) (h_path s) (h_method s) (h_scheme s) true (h_status s) (h_protocol s) (h_nopseudo s) (h_connect s) (h_head s) (h_options s) (h_regular s) (h_asterisk s) (h_http s) (h_final s) (h_prio s) (h_badprio s) (h_pri s) (h_code s) (h_clen s) (h_recv s).
Definition hs_status s code := mk_http (h_authority s) (h_path s) (h_method s) (h_scheme s) (h_host s) true (h_protocol s) (h_nopseudo s) (h_connect s) (h_head s) (h_options s) (h_regular s) (h_asterisk s) (h_http s) (h_final s) (h_prio s) (h_badprio s) (h_pri s) code (h_clen s) (h_recv s).
Definition hs_protocol s := mk_http (h_authority s) (h_path s) (h_method s) (h_scheme s) (h_host s) (h_status s) true (h_nopseudo s) (h_connect s) (h_head s) (h_options s) (h_regular s) (h_asterisk s) (h_http s) (h_final s) (h_prio s) (h_badprio s) (h_pri s) (h_code s) (h_clen s) (h_recv s).
Definition hs_nopseudo s := mk_http (h_authority s) (h_path s) (h_method s) (h_scheme s) (h_host s) (h_status s) (h_protocol s) true (h_connect s) (h_head s) (h_options s) (h_regular s) (h_asterisk s) (h_http s) (h_final s) (h_prio s) (h_badprio s) (h_pri s) (h_code s) (h_clen s) (h_recv s).
Definition hs_prio s p b q := mk_http (h_authority s) (h_path s) (h_method s) (h_scheme s) (h_host s) (h_status s) (h_protocol s) (h_nopseudo s) (h_connect s) (h_head s) (h_options s) (h_regular s) (h_asterisk s) (h_http s) (h_final s) p b q (h_code s) (h_clen s) (h_recv s).
Definition hs_clen s n := mk_http (h_authority s) (h_path s) (h_method s) (h_scheme s) (h_host s) (h_status s) (h_protocol s) (h_nopseudo s) (h_connect s) (h_head s) (h_options s) (h_regular s) (h_asterisk s) (h_http s) (h_final s) (h_prio s) (h_badprio s) (h_pri s) (h_code s) n (h_recv s).
Definition hs_recv s n := mk_http (h_authority s) (h_path s) (h_method s) (h_scheme s) (h_host s) (h_status s) (h_protocol s) (h_nopseudo s) (h_connect s) (h_head s) (h_options s) (h_regular s) (h_asterisk s) (h_http s) (h_final s) (h_prio s) (h_badprio s) (h_pri s) (h_code s) (h_clen s) n.
Definition hs_final s b := mk_http (h_authority s) (h_path s) (h_method s) (h_scheme s) (h_host s) (h_status s) (h_protocol s) (h_nopseudo s) (h_connect s) (h_head s) (h_options s) (h_regular s) (h_asterisk s) (h_http s) b (h_prio s) (h_badprio s) (h_pri s) (h_code s) (h_clen s) (h_recv s).
(* flags = (flags & METH_ALL) | EXPECT_FINAL_RESPONSE; content_length = status_code = -1 *)
Definition hs_nonfinal s := mk_http false false false false false false false false (h_connect s) (h_head s) (h_options s) false false false true false false (h_pri s) (-1) (-1) (h_recv s).

(* verdict on a field: delivered, silently dropped (ERR_REMOVE_HTTP_HEADER), or
   ERR_MALFORMED_HTTP_HEADER *)
Inductive hverdict := HKeep | HDrop | HBad.

Definition MHEAD := [72; 69; 65; 68].
Definition MCONNECT := [67; 79; 78; 78; 69; 67; 84].
Definition MOPTIONS := [79; 80; 84; 73; 79; 78; 83].
Definition SHTTP := [104; 116; 116; 112].
Definition SHTTPS := [104; 116; 116; 112; 115].
Definition STRAILERS := [116; 114; 97; 105; 108; 101; 114; 115].
Definition is_nil {A} (l : list A) : bool := match l with [] => true | _ => false end.
Definition disallowed (t : Z) : bool :=
  (t =? TOKEN_CONNECTION) || (t =? TOKEN_KEEP_ALIVE) || (t =? TOKEN_PROXY_CONNECTION)
  || (t =? TOKEN_TRANSFER_ENCODING) || (t =? TOKEN_UPGRADE).
(* the default branch of both switches *)
Definition on_other (s : http) (f : qnv) : http * hverdict :=
  if match q_name f with c :: _ => c =? 58 | [] => false end then (s, HBad)
  else if negb (check_header_value (q_value f)) then (s, HDrop)
  else (s, HKeep).

(* lib/nghttp3_http.c:444-591 http_request_on_header.  check_pseudo_header
   (lib/nghttp3_http.c:86-93) is written out: the flag must be clear and the value not empty. *)
Definition request_on_header (sf : sfparser) (s : http) (f : qnv) (trailers connect_protocol : bool) : http * hverdict :=
  let t := q_token f in let v := q_value f in
  if t =? TOKEN__AUTHORITY then
    if negb (check_authority v) || h_authority s || is_nil v then (s, HBad) else (hs_authority s, HKeep)
  else if t =? TOKEN__METHOD then
    if negb (check_method v) || h_method s || is_nil v then (s, HBad)
    else (hs_method s (beqb v MCONNECT) (beqb v MHEAD) (beqb v MOPTIONS), HKeep)
  else if t =? TOKEN__PATH then
    if negb (check_path v) || h_path s || is_nil v then (s, HBad)
    else let r := hd 0 v =? 47 in
         (hs_path s r (negb r && beqb v [42]), HKeep)
  else if t =? TOKEN__SCHEME then
    if negb (check_scheme v) || h_scheme s || is_nil v then (s, HBad)
    else (hs_scheme s (strieq SHTTP v || strieq SHTTPS v), HKeep)
  else if t =? TOKEN__PROTOCOL then
    if negb connect_protocol || negb (check_header_value v) || h_protocol s || is_nil v then (s, HBad)
    else (hs_protocol s, HKeep)
  else if t =? TOKEN_HOST then
    if negb (check_authority v) then (s, HDrop)
    else if h_host s || is_nil v then (s, HBad)
    else (hs_host s, HKeep)
  else if t =? TOKEN_CONTENT_LENGTH then
    if trailers then (s, HDrop)
    else if negb (h_clen s =? -1) then (s, HBad)
    else let s := hs_clen s (parse_uint v) in
         if h_clen s =? -1 then (s, HBad) else (s, HKeep)
  else if disallowed t then (s, HBad)
  else if t =? TOKEN_TE then
    if strieq STRAILERS v then (s, HKeep) else (s, HBad)
  else if t =? TOKEN_PRIORITY then
    if negb (check_header_value v) then (hs_prio s false true (h_pri s), HDrop)
    else if trailers || h_badprio s then (s, HKeep)
    else match parse_priority sf (h_pri s) v with
         | Some p => (hs_prio s true (h_badprio s) p, HKeep)
         | None => (hs_prio s false true (h_pri s), HKeep)
         end
  else on_other s f.

(* lib/nghttp3_http.c:593-666 http_response_on_header.  status_code is an int16_t: the
   value has three characters, so parse_uint returns -1 or at most 999. *)
Definition response_on_header (s : http) (f : qnv) (trailers : bool) : http * hverdict :=
  let t := q_token f in let v := q_value f in
  if t =? TOKEN__STATUS then
    if h_status s || is_nil v then (s, HBad)
    else if negb (zlen v =? 3) then (hs_status s (h_code s), HBad)
    else let s := hs_status s (parse_uint v) in
         if (h_code s <? 100) || (h_code s =? 101) then (s, HBad) else (s, HKeep)
  else if t =? TOKEN_CONTENT_LENGTH then
    if trailers then (s, HDrop)
    else if h_code s =? 204 then
      if negb (h_clen s =? -1) || negb (strieq [48] v) then (s, HBad)
      else (hs_clen s 0, HDrop)
    else if (Z.quot (h_code s) 100 =? 1) || ((Z.quot (h_code s) 100 =? 2) && h_connect s) then (s, HDrop)
    else if negb (h_clen s =? -1) then (s, HBad)
    else let s := hs_clen s (parse_uint v) in
         if h_clen s =? -1 then (s, HBad) else (s, HKeep)
  else if disallowed t then (s, HBad)
  else if t =? TOKEN_TE then
    if strieq STRAILERS v then (s, HKeep) else (s, HBad)
  else on_other s f.

(* lib/nghttp3_http.c:670-705 nghttp3_http_on_header *)
Definition on_header (sf : sfparser) (s : http) (f : qnv) (request trailers connect_protocol : bool) : http * hverdict :=
  match q_name f with
  | [] => (hs_nopseudo s, HDrop)
  | c :: _ =>
    let k s := if request then request_on_header sf s f trailers connect_protocol
               else response_on_header s f trailers in
    if c =? 58 then
      if (q_token f =? -1) || trailers || h_nopseudo s then (s, HBad) else k s
    else
      let s := hs_nopseudo s in
      let rv := check_nonempty_header_name (q_name f) in
      if rv =? 0 then (s, HDrop) else if rv =? -1 then (s, HBad) else k s
  end.

(* lib/nghttp3_http.c:106-111 check_path_flags *)
Definition check_path_flags (s : http) : bool :=
  negb (h_http s) || (h_regular s || (h_options s && h_asterisk s)).
(* lib/nghttp3_http.c:707-735 nghttp3_http_on_request_headers *)
Definition on_request_headers (s : http) : http * bool :=
  if negb (h_protocol s) && h_connect s then
    if h_scheme s || h_path s || negb (h_authority s) then (s, false)
    else (hs_clen s (-1), true)
  else if negb (h_method s && h_path s && h_scheme s) || negb (h_authority s || h_host s) then (s, false)
  else if h_protocol s && (negb (h_connect s) || negb (h_authority s)) then (s, false)
  else if negb (check_path_flags s) then (s, false)
  else (s, true).
(* lib/nghttp3_http.c:95-99 expect_response_body *)
Definition expect_response_body (s : http) : bool :=
  negb (h_head s) && negb (Z.quot (h_code s) 100 =? 1) && negb (h_code s =? 304) && negb (h_code s =? 204).
(* lib/nghttp3_http.c:737-759 nghttp3_http_on_response_headers *)
Definition on_response_headers (s : http) : http * bool :=
  if negb (h_status s) then (s, false)
  else if Z.quot (h_code s) 100 =? 1 then (hs_nonfinal s, true)
  else
    let s := hs_final s false in
    if negb (expect_response_body s) then (hs_clen s 0, true)
    else if h_connect s then (hs_clen s (-1), true)
    else (s, true).
(* lib/nghttp3_http.c:761-769 nghttp3_http_on_remote_end_stream; false is
   ERR_MALFORMED_HTTP_MESSAGING *)
Definition on_remote_end_stream (s : http) : bool :=
  negb (h_final s || (negb (h_clen s =? -1) && negb (h_clen s =? h_recv s))).
(* lib/nghttp3_http.c:771-781 nghttp3_http_on_data_chunk *)
Definition on_data_chunk (s : http) (n : Z) : http * bool :=
  let s := hs_recv s (h_recv s + n) in
  (s, negb (h_final s || (negb (h_clen s =? -1) && (h_recv s >? h_clen s)))).
(* lib/nghttp3_http.c:783-805 nghttp3_http_record_request_method: the first :method field of
   the request submitted by a client *)
Fixpoint record_request_method (s : http) (l : list nv) : http :=
  match l with
  | [] => s
  | f :: l' =>
    if beqb (nv_name f) [58; 109; 101; 116; 104; 111; 100] then
      if beqb (nv_value f) MCONNECT then
        mk_http (h_authority s) (h_path s) (h_method s) (h_scheme s) (h_host s) (h_status s) (h_protocol s) (h_nopseudo s) true (h_head s) (h_options s) (h_regular s) (h_asterisk s) (h_http s) (h_final s) (h_prio s) (h_badprio s) (h_pri s) (h_code s) (h_clen s) (h_recv s)
      else if beqb (nv_value f) MHEAD then
        mk_http (h_authority s) (h_path s) (h_method s) (h_scheme s) (h_host s) (h_status s) (h_protocol s) (h_nopseudo s) (h_connect s) true (h_options s) (h_regular s) (h_asterisk s) (h_http s) (h_final s) (h_prio s) (h_badprio s) (h_pri s) (h_code s) (h_clen s) (h_recv s)
      else s
    else record_request_method s l'
  end.

(* the fields of a section one after another (the loop of conn_decode_headers,
   lib/nghttp3_conn.c:1592-1647): the fields passed to the application, and whether all were
   accepted; the loop stops at the first malformed field *)
Fixpoint on_headers (sf : sfparser) (s : http) (l : list qnv) (request trailers cp : bool) : http * list qnv * bool :=
  match l with
  | [] => (s, [], true)
  | f :: l' =>
    match on_header sf s f request trailers cp with
    | (s', HBad) => (s', [], false)
    | (s', HDrop) => on_headers sf s' l' request trailers cp
    | (s', HKeep) => let '(s2, out, ok) := on_headers sf s' l' request trailers cp in (s2, f :: out, ok)
    end
  end.

(* a field as the QPACK decoder produces it: the token is that of the name
   (lib/nghttp3_qpack.c nghttp3_qpack_decoder_emit_*, see QpackDecModel.v) *)
Definition tok_ok (f : qnv) : Prop := q_token f = lookup_token (q_name f).
Definition good_field (f : qnv) : Prop := tok_ok f /\ bytes (q_name f) /\ bytes (q_value f).
Definition fl (f : qnv) : list Z * list Z := (q_name f, q_value f).
(* a complete request header section: its fields, then the check at the end of the frame
   (lib/nghttp3_conn.c:1399-1402); Some when end_headers is called, with the fields delivered *)
Definition accept_request (sf : sfparser) (ext : bool) (l : list qnv) : option (http * list qnv) :=
  let '(s, out, ok) := on_headers sf http_init l true false ext in
  if ok then let (s', ok') := on_request_headers s in if ok' then Some (s', out) else None else None.
(* a complete response header section (lib/nghttp3_conn.c:1403-1405); a client never allows
   the extended CONNECT pseudo-header (lib/nghttp3_conn.c:1613-1615) *)
Definition accept_response (sf : sfparser) (s : http) (l : list qnv) : option (http * list qnv) :=
  let '(s, out, ok) := on_headers sf s l false false false in
  if ok then let (s', ok') := on_response_headers s in if ok' then Some (s', out) else None else None.
(* the chunks of a body one after another (lib/nghttp3_conn.c:1522-1543) *)
Fixpoint body (s : http) (ns : list Z) : option http :=
  match ns with
  | [] => Some s
  | n :: ns' => let (s', ok) := on_data_chunk s n in if ok then body s' ns' else None
  end.
