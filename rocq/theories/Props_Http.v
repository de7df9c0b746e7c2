(* C19-C22: header field validation and message rules *)
From Coq Require Import String.
From Verif Require Import HttpAvx Base Tables QpackTabModel QpackTabSpec HttpModel HttpSpec HttpHist HttpProofs HttpResProofs.

(* ---- C19 ---- *)
(* nghttp3_check_header_value accepts exactly the valid values *)
Theorem C19_check_header_value : forall v, bytes v -> (check_header_value v = true <-> value_ok v).
Proof. exact check_value_spec. Qed.
(* nghttp3_check_header_name: what it accepts is a token, possibly after a colon, but with
   upper-case letters *)
Theorem C19_check_header_name : forall n, bytes n ->
  (check_header_name n = true <-> exists t, t <> [] /\ (n = t \/ n = 58 :: t) /\ Forall tchar t).
Proof. exact check_header_name_spec. Qed.
(* so it contradicts its documentation, which says that upper-case letters are an error *)
Theorem C19_check_header_name_lowercase_refuted :
  ~ (forall n, bytes n -> check_header_name n = true -> name_ok n \/ exists t, n = 58 :: t /\ name_ok t).
Proof.
  intros H. destruct (H (bs "Host") ltac:(repeat constructor; unfold is_byte; lia) ltac:(vm_compute; reflexivity)) as [[_ K]|(t & K & _)].
  - inversion K as [|? ? [_ N] _]. apply N. unfold uc_alpha, between. lia.
  - discriminate.
Qed.
(* received regular fields: an invalid name or value is never delivered, a valid field is *)
Theorem C19_received_field : forall sf s f request trailers ext s' r,
  good_field f -> ~ pseudo (q_name f) ->
  ~ In (q_name f) (n_host :: n_clen :: n_te :: bs "priority" :: conn_specific) ->
  on_header sf s f request trailers ext = (s', r) ->
  (r = HKeep <-> name_ok (q_name f) /\ value_ok (q_value f)).
Proof. exact received_field. Qed.
Example C19_ex : value_ok (bs "a b") /\ ~ value_ok (bs "a ") /\ name_ok (bs "x-y") /\ ~ name_ok (bs "X") /\
  check_header_name (bs ":a") = true.
Proof.
  split; [apply check_value_spec; [repeat constructor; unfold is_byte; lia|reflexivity]|].
  split; [rewrite <- check_value_spec by (repeat constructor; unfold is_byte; lia); vm_compute; congruence|].
  split; [split; [discriminate|apply check_name_spec; [repeat constructor; unfold is_byte; lia|reflexivity]]|].
  split; [|reflexivity].
  intros [_ K]. inversion K as [|? ? [_ N] _]. apply N. unfold uc_alpha, between. lia.
Qed.

(* ---- C20 ---- *)
(* end_headers is reached only for well-formed requests; fields withheld from the application
   are invalid ones *)
Theorem C20_request_sound : forall sf ext l s out, Forall good_field l ->
  accept_request sf ext l = Some (s, out) ->
  wf_request ext (map fl out) /\ drops (fun f => bad_field (fl f)) l out.
Proof. intros. destruct (accept_request_sound sf ext l s out) as (A & B & _); auto. Qed.
(* and every well-formed request is delivered completely *)
Theorem C20_request_complete : forall sf ext l, Forall good_field l ->
  wf_request ext (map fl l) -> exists s, accept_request sf ext l = Some (s, l).
Proof. exact accept_request_complete. Qed.
Theorem C20_trailers : forall sf request ext s l s' out, Forall good_field l ->
  on_headers sf s l request true ext = (s', out, true) ->
  wf_trailers (map fl out) /\ drops (fun f => bad_field (fl f) \/ q_name f = n_clen) l out.
Proof. intros sf request ext s l s' out. apply trailers_sound. Qed.
Theorem C20_trailers_complete : forall sf request ext s l, Forall good_field l ->
  (request = true -> absent n_host (map fl l)) -> wf_trailers (map fl l) ->
  exists s', on_headers sf s l request true ext = (s', l, true).
Proof. intros sf request ext s l. apply trailers_complete. Qed.

Definition ex_field (n v : string) : qnv := mk_qnv (bs n) (bs v) (lookup_token (bs n)) 0.
Definition ex_sf : sfparser := fun _ => ([], true).
Definition ex_get : list qnv :=
  [ex_field ":method" "GET"; ex_field ":scheme" "https"; ex_field ":path" "/x";
   ex_field ":authority" "a.b:1"; ex_field "x-bad" " v"; ex_field "content-length" "3"].
Example C20_ex : exists s out, accept_request ex_sf false ex_get = Some (s, out) /\ zlen out = 5 /\ h_clen s = 3.
Proof. eexists. eexists. split; [vm_compute; reflexivity|]. split; reflexivity. Qed.
Example C20_ex_good : Forall good_field ex_get.
Proof. repeat constructor; unfold is_byte; lia. Qed.
Example C20_ex_bad : accept_request ex_sf false (ex_field "a" "b" :: ex_get) = None.
Proof. vm_compute. reflexivity. Qed.

(* ---- C21 ---- *)
(* [awaiting sf req s]: a client that sent [req] and has received any number of informational
   responses *)
Theorem C21_response_sound : forall sf req s l s' out, awaiting sf req s -> Forall good_field l ->
  accept_response sf s l = Some (s', out) ->
  wf_response (method_is (bs "CONNECT") req) (map fl out) /\
  drops (fun f => bad_field (fl f) \/
                  (q_name f = n_clen /\ clen_forbidden (method_is (bs "CONNECT") req) (map fl out))) l out.
Proof.
  intros sf req s l s' out AW G E.
  destruct (accept_response_sound _ _ _ _ _ _ _ G (awaiting_fresh _ _ _ AW) E) as (A & B & _). auto.
Qed.
Theorem C21_response_complete : forall sf req s l, awaiting sf req s -> Forall good_field l ->
  wf_response (method_is (bs "CONNECT") req) (map fl l) -> exists s', accept_response sf s l = Some (s', l).
Proof. intros sf req s l AW G. apply (accept_response_complete sf _ _ s l G (awaiting_fresh _ _ _ AW)). Qed.
Example C21_ex : exists s s1 s2,
  awaiting ex_sf [mk_nv (bs ":method") (bs "HEAD") 0] s /\
  accept_response ex_sf (record_request_method http_init [mk_nv (bs ":method") (bs "HEAD") 0])
    [ex_field ":status" "103"; ex_field "link" "x"] = Some (s, [ex_field ":status" "103"; ex_field "link" "x"]) /\
  accept_response ex_sf s [ex_field ":status" "200"; ex_field "content-length" "9"] =
    Some (s1, [ex_field ":status" "200"; ex_field "content-length" "9"]) /\ h_clen s1 = 0 /\
  accept_response ex_sf s [ex_field ":status" "204"; ex_field "content-length" "0"] =
    Some (s2, [ex_field ":status" "204"]) /\
  accept_response ex_sf s [ex_field ":status" "101"] = None.
Proof.
  eexists. eexists. eexists. split; [|vm_compute; repeat split; reflexivity].
  eapply aw_next with (l := [ex_field ":status" "103"; ex_field "link" "x"]) (out := [ex_field ":status" "103"; ex_field "link" "x"]).
  - apply aw_first.
  - repeat constructor; unfold is_byte; lia.
  - vm_compute. reflexivity.
  - exists (bs "103"). split; reflexivity.
Qed.

(* ---- C22 ---- *)
(* [ns]: the sizes of the chunks in which the body arrives *)
Theorem C22_request : forall sf ext l s out ns, Forall good_field l ->
  accept_request sf ext l = Some (s, out) -> Forall (fun n => 0 <= n) ns ->
  ((exists s', body s ns = Some s') <->
   (plain_connect (map fl out) \/ forall v, In v (values n_clen (map fl out)) -> zsum ns <= num v)) /\
  ((exists s', body s ns = Some s' /\ on_remote_end_stream s' = true) <->
   (plain_connect (map fl out) \/ forall v, In v (values n_clen (map fl out)) -> zsum ns = num v)).
Proof. exact request_body. Qed.
Theorem C22_response : forall sf req s l s' out ns,
  awaiting sf req s -> Forall good_field l -> accept_response sf s l = Some (s', out) ->
  ~ informational (map fl out) -> Forall (fun n => 0 <= n) ns ->
  ((exists s2, body s' ns = Some s2 /\ on_remote_end_stream s2 = true) <->
   if method_is (bs "HEAD") req then zsum ns = 0
   else (status_is (map fl out) (fun c => c = 304 \/ c = 204) -> zsum ns = 0) /\
        (method_is (bs "CONNECT") req = false -> ~ status_is (map fl out) (fun c => c = 304 \/ c = 204) ->
         forall v, In v (values n_clen (map fl out)) -> zsum ns = num v)) /\
  ((exists s2, body s' ns = Some s2) <->
   if method_is (bs "HEAD") req then zsum ns = 0
   else (status_is (map fl out) (fun c => c = 304 \/ c = 204) -> zsum ns = 0) /\
        (method_is (bs "CONNECT") req = false -> ~ status_is (map fl out) (fun c => c = 304 \/ c = 204) ->
         forall v, In v (values n_clen (map fl out)) -> zsum ns <= num v)).
Proof. exact response_body. Qed.
(* no body and no end of stream after an informational response *)
Theorem C22_informational : forall sf req s l s' out n, awaiting sf req s -> Forall good_field l ->
  accept_response sf s l = Some (s', out) -> informational (map fl out) ->
  body s' [n] = None /\ on_remote_end_stream s' = false.
Proof.
  intros sf req s l s' out n AW G E I.
  destruct (accept_response_sound _ _ _ _ _ _ _ G (awaiting_fresh _ _ _ AW) E) as (_ & _ & A & _).
  destruct (A I) as [_ F]. unfold on_remote_end_stream. rewrite F. split; [|reflexivity].
  unfold body, on_data_chunk. change (h_final (hs_recv s' (h_recv s' + n))) with (h_final s'). rewrite F. reflexivity.
Qed.
Example C22_ex : exists s out, accept_request ex_sf false ex_get = Some (s, out) /\
  (exists s', body s [1; 2] = Some s' /\ on_remote_end_stream s' = true) /\ body s [1; 3] = None.
Proof.
  eexists. eexists. split; [vm_compute; reflexivity|]. split; [eexists; split; vm_compute; reflexivity|reflexivity].
Qed.

(* the AVX2 build of nghttp3_check_header_value accepts the same values *)
Theorem C19_avx2 : forall v, bytes v -> (check_header_value_avx2 v = true <-> value_ok v).
Proof. intros v B. rewrite check_avx2 by exact B. apply check_value_spec. exact B. Qed.
Example C19_avx2_ex : check_header_value_avx2 (repeat 97 70 ++ [9; 200; 33]) = true /\
  check_header_value_avx2 (repeat 97 40 ++ [127] ++ repeat 97 40) = false /\ check_header_value_avx2 (repeat 97 33 ++ [10; 97]) = false.
Proof. vm_compute. auto. Qed.
Print Assumptions C19_avx2.

Print Assumptions C19_check_header_value.
Print Assumptions C19_check_header_name.
Print Assumptions C19_check_header_name_lowercase_refuted.
Print Assumptions C19_received_field.
Print Assumptions C20_request_sound.
Print Assumptions C20_request_complete.
Print Assumptions C20_trailers.
Print Assumptions C20_trailers_complete.
Print Assumptions C21_response_sound.
Print Assumptions C21_response_complete.
Print Assumptions C22_request.
Print Assumptions C22_response.
Print Assumptions C22_informational.
