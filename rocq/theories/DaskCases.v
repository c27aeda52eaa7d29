(** Concrete runs for C45. *)
From Verif Require Import Lib DaskModel.

Definition fin_case (k : nat) (d : dataid) : bool :=
  match k with 0 => Nat.eqb (snd d) 2 | 1 => Nat.eqb (snd d) 2 || Nat.ltb 2 (snd d) | _ => true end.

Lemma dask_case : wait fin_case (@rev dataid) [(0, 1); (0, 2); (0, 3); (0, 4)] 2 =
  DWait 2 [(0, 4); (0, 3)] [(0, 1); (0, 2)] /\
  wait fin_case (fun l => l) [(0, 1); (0, 2); (0, 3); (0, 4)] 4 = DWait 3 [(0, 2); (0, 3); (0, 4); (0, 1)] [].
Proof. vm_compute. auto. Qed.
