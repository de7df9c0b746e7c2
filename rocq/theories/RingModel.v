(* Model of the ring buffer, lib/nghttp3_ringbuf.c.  Slots hold Z; a push function, which returns
   the slot for the caller to fill, takes the value to be stored.  [junk]: what malloc returned *)
From Verif Require Import Base.
Open Scope Z_scope.

Record ring := mk_ring { rb_buf : Z -> Z; rb_nmemb : Z; rb_first : Z; rb_len : Z }.
Definition size_max1 : Z := 2 ^ 64.
Definition rb_set (f : Z -> Z) (i v : Z) : Z -> Z := fun j => if j =? i then v else f j.
(* __builtin_popcount((unsigned int)n), lib/nghttp3_ringbuf.c:37-50 ispow2 *)
Definition popcount32 (n : Z) : Z :=
  fold_right Z.add 0 (map (fun i => if Z.testbit n (Z.of_nat i) then 1 else 0) (seq 0 32)).
Definition ispow2 (n : Z) : bool := popcount32 n =? 1.
(* lib/nghttp3_ringbuf.c:52-73 nghttp3_ringbuf_init *)
Definition rb_init (junk : Z -> Z) (nmemb : Z) : outcome ring :=
  if negb (nmemb =? 0) && negb (ispow2 nmemb) then Abort else Ok (mk_ring junk nmemb 0 0).
(* (x mod 2^64) & (nmemb - 1) *)
Definition rb_mask (r : ring) (x : Z) : Z := Z.land (x mod size_max1) ((rb_nmemb r - 1) mod size_max1).
(* lib/nghttp3_ringbuf.c:82-87 nghttp3_ringbuf_push_front *)
Definition rb_push_front (r : ring) (v : Z) : ring :=
  let first := rb_mask r (rb_first r - 1) in
  mk_ring (rb_set (rb_buf r) first v) (rb_nmemb r) first (Z.min (rb_nmemb r) (rb_len r + 1)).
(* lib/nghttp3_ringbuf.c:89-99 nghttp3_ringbuf_push_back *)
Definition rb_push_back (r : ring) (v : Z) : ring :=
  let offset := rb_mask r (rb_first r + rb_len r) in
  if rb_len r =? rb_nmemb r
  then mk_ring (rb_set (rb_buf r) offset v) (rb_nmemb r) (rb_mask r (rb_first r + 1)) (rb_len r)
  else mk_ring (rb_set (rb_buf r) offset v) (rb_nmemb r) (rb_first r) (rb_len r + 1).
(* lib/nghttp3_ringbuf.c:101-104 nghttp3_ringbuf_pop_front; no assertion: an empty buffer gets the
   length SIZE_MAX *)
Definition rb_pop_front (r : ring) : ring :=
  mk_ring (rb_buf r) (rb_nmemb r) (rb_mask r (rb_first r + 1)) ((rb_len r - 1) mod size_max1).
(* lib/nghttp3_ringbuf.c:106-109 nghttp3_ringbuf_pop_back *)
Definition rb_pop_back (r : ring) : outcome ring :=
  if rb_len r =? 0 then Abort else Ok (mk_ring (rb_buf r) (rb_nmemb r) (rb_first r) (rb_len r - 1)).
(* lib/nghttp3_ringbuf.c:111-114 nghttp3_ringbuf_resize *)
Definition rb_resize (r : ring) (len : Z) : outcome ring :=
  if rb_nmemb r <? len then Abort else Ok (mk_ring (rb_buf r) (rb_nmemb r) (rb_first r) len).
(* lib/nghttp3_ringbuf.c:116-120 nghttp3_ringbuf_get *)
Definition rb_get (r : ring) (offset : Z) : outcome Z :=
  if rb_len r <=? offset then Abort else Ok (rb_buf r (rb_mask r (rb_first r + offset))).
(* lib/nghttp3_ringbuf.c:122 nghttp3_ringbuf_full *)
Definition rb_full (r : ring) : bool := rb_len r =? rb_nmemb r.
(* memcpy of [n] slots *)
Definition rb_copy (dst : Z -> Z) (at_ : Z) (src : Z -> Z) (from n : Z) : Z -> Z :=
  fun i => if (at_ <=? i) && (i <? at_ + n) then src (from + (i - at_)) else dst i.
(* lib/nghttp3_ringbuf.c:124-158 nghttp3_ringbuf_reserve *)
Definition rb_reserve (junk : Z -> Z) (r : ring) (nmemb : Z) : outcome ring :=
  if nmemb <=? rb_nmemb r then Ok r
  else if negb (ispow2 nmemb) then Abort
  else if rb_nmemb r =? 0 then Ok (mk_ring junk nmemb (rb_first r) (rb_len r))   (* rb->buf == NULL *)
  else
    let head := rb_nmemb r - rb_first r in
    let buf :=
      if rb_first r + rb_len r <=? rb_nmemb r then rb_copy junk 0 (rb_buf r) (rb_first r) (rb_len r)
      else rb_copy (rb_copy junk 0 (rb_buf r) (rb_first r) head) head (rb_buf r) 0 (rb_len r - head) in
    Ok (mk_ring buf nmemb 0 (rb_len r)).
