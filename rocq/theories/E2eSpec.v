(* What one application is to be given when the other one submits messages on a stream. *)
From Verif Require Import Base ConvModel QpackTabModel HttpSpec HttpModel QpackEncModel QpackEncSpec TxModel TxSpec ConnModel ConnHist SendSpec RfcQpackSpec RfcStreamSpec EncRfc.
Open Scope Z_scope.

(* the bytes of a stream the sender has offered to the transport: an offer begins where the transport has got to *)
Definition wire_step (s : list Z * Z) (e : tev) : list Z * Z :=
  match e with
  | TOffer vs _ => (if zlen (fst s) <? snd s + zlen (concat vs) then upto (snd s) (fst s) ++ concat vs else fst s, snd s)
  | TWritten n => (fst s, snd s + n)
  | _ => s
  end.
Definition wire (log : list tev) : list Z := fst (fold_left wire_step log ([], 0)).

(* the fields of a submitted header section as the peer is to see them *)
Definition as_fields (nva : list ConvModel.nv) : list qnv := map (fun h => said (same_nv h)) nva.
(* The submitted frames [l] say the items [its] to the peer; the reader of the last one was called j times in all, and has
   more to give if [open] *)
Inductive told (E : txenv) : list TxModel.frame -> bool -> nat -> list item -> Prop :=
| td_nil : told E [] false 0 []
| td_headers l j its nva : told E l false j its -> told E (l ++ [TxModel.FHeaders nva]) false j (its ++ Begin :: map Fld (as_fields nva) ++ [Finish])
| td_data l j its : told E l false j its -> told E (l ++ [TxModel.FData]) true j its
| td_wait l j its : told E l true j its -> te_rd E j = RdErr ERR_WOULDBLOCK -> told E l true (S j) its
| td_piece l j its vecs (eof : bool) ne : told E l true j its -> te_rd E j = RdData vecs eof ne -> told E l (negb eof) (S j) (its ++ map Byte (concat vecs))
| td_other l j its f : told E l false j its -> ctl_frame f -> told E (l ++ [f]) false j its.

(* fields that the receiver may leave out *)
Definition may_miss (i : item) : Prop := exists f, i = Fld f /\ unwanted f.
(* [got]: the beginning of [its], [rest] is still to come *)
Definition delivered (its rest got : list item) : Prop := exists pre, its = pre ++ rest /\ drops may_miss pre got.

(* how many header sections of a stream have been given to the encoder: the caller of nghttp3_conn_writev_stream sees this
   number as the number of HEADERS frames it was offered, begun or whole *)
Definition made (c : conn) (id : Z) : nat := match find_stream c id with Some s => t_nenc (st_t s) | None => 0%nat end.
(* the encoder's answers for the sections [secs] of stream [id] are those of the encoder history [tr] *)
Definition replays (tr : list (eop * eres)) (id : Z) (E : txenv) (secs : list (list ConvModel.nv)) : Prop :=
  forall k nva p r e, nth_error secs k = Some nva -> te_enc E k nva = Ok (p, r, e) -> exists eb ric, In (EEncode id (map same_nv nva), ErSection (p ++ r) eb ric) tr.
Definition sections_made (K : kenv) (c : conn) (id : Z) (h : list kcall) : list (list ConvModel.nv) := firstn (made c id) (sections (submitted (slog K id h))).
(* the Required Insert Counts on the stream are understood whenever the receiver reads them: [n0]: its Insert Count when
   the stream was opened, [n1]: now *)
Definition in_window (cap n0 n1 : Z) (tr : list (eop * eres)) (id : Z) : Prop :=
  forall hs sec eb ric, In (EEncode id hs, ErSection sec eb ric) tr -> ric = 0 \/ n1 - cap / 32 < ric <= n0 + cap / 32.
