(** Concrete histories used by DataIdProps.v. *)
From Verif Require Import Lib ShmModel DataIdModel DataIdProofs.

(** Process 0 creates two references, process 1 receives one twice and drops a copy, process 0
    drops both of its own and cleans up. *)
Definition id_ops : list dop :=
  [DGen 0; DGen 0; DGen 1; DRecv 1 (0, 0); DRecv 1 (0, 0); DRecv 0 (0, 0); DDrop 1 1;
   DDrop 0 0; DDrop 0 1; DDrop 0 0; DClean 0 1; DRecv 0 (1, 0); DDrop 0 0].

Lemma id_case :
  created (repeat proc_init 2) id_ops = [(0, 0); (0, 1); (1, 0)] /\
  exists x y, drun 2 id_ops = [x; y] /\
    collected x = [(0, 0); (0, 1)] /\ collected y = [] /\
    live y (0, 0) /\ live y (1, 0) /\ length (handles y) = 4.
Proof.
  split; [reflexivity|]. eexists. eexists. split; [vm_compute; reflexivity|].
  split; [reflexivity|]. split; [reflexivity|].
  split; [exists 1; split; [vm_compute; auto|reflexivity]|].
  split; [exists 0; split; [vm_compute; auto|reflexivity]|]. reflexivity.
Qed.

(** A reference comes back in a message after its owner dropped and recorded it. *)
Definition revive_ops : list dop := [DGen 0; DRecv 1 (0, 0); DDrop 0 0; DRecv 0 (0, 0)].

Lemma revive_case :
  exists x, nth_error (drun 2 revive_ops) 0 = Some x /\ In (0, 0) (collected x) /\ live x (0, 0).
Proof.
  eexists. split; [vm_compute; reflexivity|]. split; [simpl; auto|].
  exists 1. split; [simpl; auto|reflexivity].
Qed.
