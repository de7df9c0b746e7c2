(* RFC 9114 read as a specification: what the bytes of a request stream mean to the application.
   Written from RFC 9114 (4.1, 7.1, 7.2.1, 7.2.2, 9) and RFC 9204, not from the code. *)
From Verif Require Import Base ConvSpec QpackTabModel HttpSpec HttpModel BidiModel RfcQpackSpec.
Open Scope Z_scope.

(* what an application is given: the beginning and the end of a header or trailer section, its
   fields, and the bytes of the content *)
Inductive item := Begin | Fld (f : qnv) | Finish | Byte (b : Z).
Fixpoint content (evs : list bev) : list item :=
  match evs with
  | [] => []
  | e :: evs' =>
    match e with
    | BvBeginHeaders | BvBeginTrailers => [Begin]
    | BvHeader f | BvTrailer f => [Fld f]
    | BvEndHeaders | BvEndTrailers => [Finish]
    | BvData b => [Byte b]
    | _ => []
    end ++ content evs'
  end.

(* [H] is the list of everything the peer has inserted into the dynamic table, by absolute index *)
Definition insertions (max : Z) (es : list Z) (H : list field) : Prop :=
  exists t l, instructions max t_start es t l /\ unfinished l /\ t_all t = H.
Definition numbered (H : list field) (i : Z) : option field := if i <? 0 then None else nth_error H (Z.to_nat i).

Section Means.
Variables (max : Z) (H : list field).
Variable n0 : Z.   (* the Insert Count when the stream was opened *)

(* [n]: the Insert Count when the encoded Required Insert Count was read *)
Definition count_then (n : Z) : Prop := n0 <= n <= zlen H.
(* a whole field section *)
Definition whole_section (p : list Z) (qs : list qnv) : Prop :=
  exists n ric base m, count_then n /\ section_prefix max n p ric base m /\ ric <= zlen H /\
    field_lines (numbered H) ric base m qs [].
(* the beginning of one: not even the prefix is complete, or all field lines but an incomplete
   last one *)
Inductive part_section (p : list Z) : list qnv -> Prop :=
| ps_prefix n : count_then n -> (forall ric base m, ~ section_prefix max n p ric base m) -> part_section p []
| ps_lines n ric base m qs r : count_then n -> section_prefix max n p ric base m -> (m <> [] -> ric <= zlen H) ->
    field_lines (numbered H) ric base m qs r -> (forall q r', ~ field_line (numbered H) ric base r q r') ->
    part_section p qs.

(* fields that may be left out when the section is handed over: RFC 9114 4.2, 4.3 (an invalid name
   or value), RFC 9110 8.6 (a Content-Length where none is allowed) *)
Definition unwanted (f : qnv) : Prop := bad_field (q_name f, q_value f) \/ q_name f = n_clen.

(* RFC 9114 7.1: type, length; [r] follows *)
Definition frame_head (l : list Z) (ty len : Z) (r : list Z) : Prop :=
  exists m, rfc_varint l = Some (ty, m) /\ rfc_varint m = Some (len, r).
(* what a complete frame with the payload [p] means *)
Inductive frame_means : Z -> list Z -> list item -> Prop :=
| fm_data p : frame_means 0 p (map Byte p)                                       (* 7.2.1 *)
| fm_headers p qs ks : p <> [] -> whole_section p qs -> drops unwanted qs ks ->  (* 7.2.2 *)
    frame_means 1 p (Begin :: map Fld ks ++ [Finish])
| fm_no_trailers : frame_means 1 [] []         (* leniency: HEADERS without payload in place of trailers *)
| fm_other ty p : ty <> 0 -> ty <> 1 -> frame_means ty p [].                     (* 9 *)
(* complete frames, then [r] *)
Inductive frames : list Z -> list item -> list Z -> Prop :=
| fs_nil l : frames l [] l
| fs_cons l ty len p r it its r' : frame_head l ty len (p ++ r) -> zlen p = len -> frame_means ty p it ->
    frames r its r' -> frames l (it ++ its) r'.
(* the beginning of a frame *)
Inductive part_frame (l : list Z) : list item -> Prop :=
| pf_head : (forall ty len p, ~ frame_head l ty len p) -> part_frame l []
| pf_data len p : frame_head l 0 len p -> zlen p < len -> part_frame l (map Byte p)
| pf_headers len p qs ks : frame_head l 1 len p -> 0 < len -> zlen p <= len -> part_section p qs ->
    drops unwanted qs ks -> part_frame l (Begin :: map Fld ks)
| pf_other ty len p : frame_head l ty len p -> ty <> 0 -> ty <> 1 -> zlen p <= len -> part_frame l [].
(* the bytes [l] of a stream mean the items [its] *)
Definition means (l : list Z) (its : list item) : Prop :=
  exists its1 r its2, frames l its1 r /\ part_frame r its2 /\ its = its1 ++ its2.
(* ... and nothing of it is held back: a HEADERS frame that is complete is given completely, unless it holds no field line *)
Definition means_all (l : list Z) (its : list item) : Prop :=
  exists its1 r its2, frames l its1 r /\ part_frame r its2 /\ its = its1 ++ its2 /\
    forall len p, frame_head r 1 len p -> zlen p = len -> its2 = [Begin] /\ part_section p [].
End Means.
