(* Histories of response sections, on top of HttpModel.v *)
From Verif Require Import Base QpackTabModel HttpModel HttpSpec.
(* the states in which the client of request [req] may receive a response section: at first,
   and after each informational one *)
Inductive awaiting (sf : sfparser) (req : list nv) : http -> Prop :=
| aw_first : awaiting sf req (record_request_method http_init req)
| aw_next s l s' out : awaiting sf req s -> Forall good_field l ->
    accept_response sf s l = Some (s', out) -> informational (map fl out) -> awaiting sf req s'.
