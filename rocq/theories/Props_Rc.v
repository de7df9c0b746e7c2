(* C56: header names and values are reference counted correctly *)
From Coq Require Import ZArith List Bool.
From Verif Require Import RcModel RcSpec RcProofs.
Import ListNotations.
Open Scope Z_scope.

(* Whatever the peer sends, whichever allocation fails, whatever the callbacks keep and in
   whichever order the objects are deleted: no operation uses NULL or a buffer that has been freed,
   and no count is taken below zero *)
Theorem C56_never_misused s o : reach s -> lawful s o -> step s o <> None.
Proof. exact (reach_step_ok s o). Qed.

(* A buffer exists exactly as long as something refers to it, and its count is the number of those
   references *)
Theorem C56_counts s n : reach s ->
  match nth_error (hp s) n with
  | Some (Some c) => ref c = count n (holders s) /\ 0 < count n (holders s)
  | _ => count n (holders s) = 0
  end.
Proof. exact (reach_counts s n). Qed.

(* Nothing is left behind *)
Theorem C56_no_leak s n : reach s -> all_gone s -> content s n = None.
Proof. exact (gone_empty s n). Qed.

(* What the application keeps stays there, unchanged, whatever happens to the connection *)
Theorem C56_kept s s' n : reach s -> keeping n s s' ->
  content s n <> None /\ content s' n = content s n.
Proof. intros R K. exact (proj2 (proj2 (kept s s' n R K))). Qed.

(* nghttp3_qpack_stream_context_reset in the middle of a field line forgets the half-read name:
   it is never freed *)
Definition nothing : choice := mk_choice 0 false false false [] 0 0 true true true true.
Definition literal : choice := mk_choice 1 false false false [] 0 0 true true true true.
Definition bytes (l : list Z) : choice := mk_choice 0 false false false l 0 0 true true true true.
Theorem C56_reset_midway_refuted : exists l s,
  run init l = Some s /\ all_gone s /\ content s 0 <> None.
Proof.
  exists [OContextNew; OReadRequest 0 nothing nothing; OReadRequest 0 literal nothing;
          OReadRequest 0 nothing nothing; OContextReset 0; OContextDel 0; ODecoderDel; OEncoderDel].
  eexists. split; [vm_compute; reflexivity|]. split.
  - split; [reflexivity|]. split; [reflexivity|]. split; [|reflexivity].
    intros [|[|i]]; reflexivity.
  - vm_compute. discriminate.
Qed.

(* An entry is inserted through the encoder stream, a field line refers to it, and the application
   keeps the value; the entry is evicted, and the decoder, the stream and the encoder go: the value
   is still there.  Then the application lets go of it *)
Definition dynamic : choice := mk_choice 0 true false false [] 0 0 true true true true.
Definition capacity : choice := mk_choice 2 false false false [] 0 0 true true true true.
Definition one_out : choice := mk_choice 0 false false false [] 0 1 true true true true.
Definition story : list op :=
  [OReadEncoder literal nothing; OReadEncoder nothing nothing; OReadEncoder (bytes [97; 98]) nothing;
   OReadEncoder nothing nothing; OReadEncoder (bytes [99]) nothing;
   OContextNew; OReadRequest 0 nothing nothing; OReadRequest 0 dynamic nothing;
   OHeader 0 nothing nothing false true].
Definition ending : list op :=
  [OReadEncoder capacity nothing; OReadEncoder one_out nothing; OContextDel 0; ODecoderDel;
   OEncoderDel].
Definition after (l : list op) : st := match run_lawful init l with Some s => s | None => init end.
Example C56_story :
  content (after story) 0 = Some [97; 98] /\ content (after story) 1 = Some [99] /\
  app (after story) = [Buf 1] /\ holders (after story) = [Null; Null; Null; Null; Buf 0; Buf 1; Buf 1] /\
  content (after (story ++ ending)) 0 = None /\ content (after (story ++ ending)) 1 = Some [99] /\
  app (after (story ++ ending)) = [Buf 1] /\
  content (after (story ++ ending ++ [ODecref (Buf 1)])) 1 = None.
Proof. vm_compute. repeat split. Qed.
Example C56_story_reached :
  reach (after story) /\ reach (after (story ++ ending)) /\
  reach (after (story ++ ending ++ [ODecref (Buf 1)])) /\
  all_gone (after (story ++ ending ++ [ODecref (Buf 1)])).
Proof.
  split; [|split; [|split]].
  - apply (run_reach story init); [apply reach_init|]. vm_compute. reflexivity.
  - apply (run_reach (story ++ ending) init); [apply reach_init|]. vm_compute. reflexivity.
  - apply (run_reach (story ++ ending ++ [ODecref (Buf 1)]) init); [apply reach_init|].
    vm_compute. reflexivity.
  - split; [reflexivity|]. split; [reflexivity|]. split; [|reflexivity].
    intros [|[|i]]; reflexivity.
Qed.

Print Assumptions C56_never_misused.
Print Assumptions C56_counts.
Print Assumptions C56_no_leak.
Print Assumptions C56_kept.
Print Assumptions C56_reset_midway_refuted.
