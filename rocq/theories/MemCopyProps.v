(** C11: the multi-threaded copy. *)
From Verif Require Import Lib MemCopyModel MemCopyProofs.
From Coq Require Import Permutation.
Local Open Scope Z_scope.

(* In whatever order the byte copies of the threads are executed, the destination afterwards
   holds exactly the source bytes and nothing else has changed. *)
Theorem C11_copy_is_exact_partial :
  forall dst src nbytes k threads src_mem m l,
    0 <= k <= 32 -> 0 <= nbytes -> 0 <= src -> src + nbytes + 2 ^ k < 2 ^ 63 -> 0 < threads < 2 ^ 31 ->
    (exists a, src <= a <= src + nbytes /\ (2 ^ k | a)) ->
    exists copies, parallel_memcopy dst src nbytes (2 ^ k) threads = Some copies /\
      (Permutation l copies ->
       forall x, run_copies src_mem m l x =
         if (dst <=? x) && (x <? dst + nbytes) then src_mem (src + (x - dst)) else m x).
Proof. exact exact_copy. Qed.
Print Assumptions C11_copy_is_exact_partial.

(* The hypothesis on alignment holds for every source address once the buffer has at least
   block size - 1 bytes. *)
Theorem C11_long_buffers_are_covered :
  forall src nbytes k, 0 <= k -> 2 ^ k - 1 <= nbytes ->
    exists a, src <= a <= src + nbytes /\ (2 ^ k | a).
Proof. exact long_enough. Qed.
Print Assumptions C11_long_buffers_are_covered.

(* A buffer with no 64-aligned address in it is never copied: with the six threads the code
   uses, a negative count reaches memcpy. *)
Theorem C11_small_unaligned_refuted :
  forall dst src nbytes,
    0 <= src -> 0 <= nbytes -> src + nbytes + 64 < 2 ^ 63 ->
    (forall a, src <= a <= src + nbytes -> ~ (64 | a)) ->
    parallel_memcopy dst src nbytes 64 6 = None.
Proof. exact small_unaligned. Qed.
Print Assumptions C11_small_unaligned_refuted.

Example C11_case :
  (exists copies, parallel_memcopy 1000 3 700 64 6 = Some copies /\ length copies = 700%nat) /\
  (exists a, 3 <= a <= 3 + 700 /\ (2 ^ 6 | a)) /\
  parallel_memcopy 1000 3 20 64 6 = None.
Proof.
  split; [eexists; split; vm_compute; reflexivity|]. split; [exists 64; split; [lia | now exists 1]|].
  vm_compute; reflexivity.
Qed.
