(** C45. [finished k d]: the future d is finished when the k-th call of distributed.wait returns; [order]: how Python
    lists a set. *)
From Verif Require Import Lib DaskModel DaskProofs DaskCases.
From Coq Require Import Permutation.

(** If wait returns, the ready references are num_returns many, each was finished at one of the calls made, and ready
    and not ready together are the references given. *)
Theorem C45_wait_partition :
  forall (finished : nat -> dataid -> bool) (order : list dataid -> list dataid),
  (forall l, Permutation l (order l)) ->
  forall refs n calls ready not_ready, NoDup refs -> wait finished order refs n = DWait calls ready not_ready ->
  Permutation refs (ready ++ not_ready) /\ length ready = n /\
  forall d, In d ready -> exists k, k < calls /\ finished k d = true.
Proof. exact wait_ok. Qed.
Print Assumptions C45_wait_partition.

(** It does return when no more are asked for than there are and every call of distributed.wait on some of the
    references can return. *)
Theorem C45_wait_returns :
  forall (finished : nat -> dataid -> bool) (order : list dataid -> list dataid) refs n,
  NoDup refs -> refs <> [] -> n <= length refs ->
  (forall k l, l <> [] -> incl l refs -> exists d, In d l /\ finished k d = true) ->
  exists calls ready not_ready, wait finished order refs n = DWait calls ready not_ready.
Proof. exact wait_returns. Qed.
Print Assumptions C45_wait_returns.

(** It never returns when more are asked for than there are, *)
Theorem C45_too_many_never_returns :
  forall (finished : nat -> dataid -> bool) (order : list dataid -> list dataid) refs n,
  NoDup refs -> length refs < n -> wait finished order refs n = DForever.
Proof. exact too_many_forever. Qed.
Print Assumptions C45_too_many_never_returns.

(** nor when a reference is given twice and both are asked for, although it is finished. *)
Theorem C45_duplicates_refuted :
  forall d : dataid, wait (fun _ _ => true) (fun l => l) [d; d] 2 = DForever.
Proof. exact duplicates_forever. Qed.
Print Assumptions C45_duplicates_refuted.

(** Three rounds are needed for all four; of the two rounds needed for two of them, one future too many is finished
    and given back. *)
Example C45_case :
  wait fin_case (@rev dataid) [(0, 1); (0, 2); (0, 3); (0, 4)] 2 = DWait 2 [(0, 4); (0, 3)] [(0, 1); (0, 2)] /\
  wait fin_case (fun l => l) [(0, 1); (0, 2); (0, 3); (0, 4)] 4 = DWait 3 [(0, 2); (0, 3); (0, 4); (0, 1)] [].
Proof. exact dask_case. Qed.
