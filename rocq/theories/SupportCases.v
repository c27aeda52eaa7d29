(** Cases for C77. *)
From Coq Require Import ZArith String.
From Verif Require Import Lib ConfigModel SpawnModel SpawnSpec SpawnCases SupportModel SupportSpec SupportProofs.
From Coq Require Import List.
Import ListNotations.
Local Open Scope list_scope.

(** What MPICH says about itself. *)
Definition mpich (version : text) : text :=
  codes "MPICH Version:" ++ codes "      " ++ version ++ [10] ++ codes "MPICH Release date: unreleased" ++ [10].

Lemma mpich_is vs : mpich_library (mpich (dotted vs)) vs.
Proof.
  exists [], (codes "MPICH Version:" ++ codes "     "), 32, ([10] ++ codes "MPICH Release date: unreleased" ++ [10]).
  split; [|split; [intros l []|split; [|split; [|split; [left; reflexivity|right; eexists; reflexivity]]]]].
  - unfold mpich. cbn [flat_map app]. rewrite <- !app_assoc. reflexivity.
  - intros H. vm_compute in H. intuition discriminate.
  - exists [], (codes "     "). reflexivity.
Qed.

Definition openmpi : text := codes "Open MPI v4.1.4, package: Debian OpenMPI".
Definition cray : text := codes "MPI VERSION    : CRAY MPICH version 8.1.25.17".

Lemma c77_case :
  mpich_library (mpich (dotted [4; 1; 2])) [4; 1; 2] /\ mpich_library (mpich (dotted [10; 0; 1])) [10; 0; 1] /\
  supported true 3 (mpich (dotted [4; 1; 2])) true = Some false /\ supported true 3 (mpich (dotted [4; 1; 2])) false = Some true /\
  supported true 3 (mpich (dotted [10; 0; 1])) true = Some true /\
  ~ occurs (codes "MPICH") openmpi /\ supported true 3 openmpi true = Some true /\ supported true 2 openmpi true = Some false.
Proof.
  split; [apply mpich_is|]. split; [apply mpich_is|]. repeat split; try (vm_compute; reflexivity).
  intros H. apply contains_iff in H. vm_compute in H. discriminate.
Qed.

Lemma c77_agree_case :
  let root := root_of (prog_of env_root us1 rt1) in
  let ec := assigned rt1 no_env in
  settled 4%Z 8%Z root ec Shared /\ settled 4%Z 8%Z root ec Spawn /\
  supported_in a_float 4%Z root env_root 3 (mpich (dotted [4; 2; 0])) = Some true.
Proof.
  cbv zeta. split; [left; vm_compute; discriminate|]. split; [right; vm_compute; auto|]. vm_compute. reflexivity.
Qed.

Lemma c77_two_numbers : mpich_library (mpich (dotted [4; 2])) [4; 2] /\ at_least_4_2_0 [4; 2] /\
  supported true 3 (mpich (dotted [4; 2])) true = Some false.
Proof. split; [apply mpich_is|]. split; [right; simpl; lia|vm_compute; reflexivity]. Qed.

Lemma c77_raises : supported true 3 (mpich (codes "4.2.0rc1")) true = None /\ supported true 3 cray true = None.
Proof. split; vm_compute; reflexivity. Qed.

(** The variable is set on the other host only. *)
Definition child_only : environ := fun n => if text_eqb n (codes "UNIDIST_MPI_SHARED_OBJECT_STORE") then Some (codes "true") else None.

Lemma c77_disagree :
  exists root prog child ec,
    program a_float a_show a_repr 4%Z no_env (uses a_float 4%Z no_env []) None = Some (root, prog) /\
    spawned a_float a_read a_unrepr 4%Z child_only prog = Some (child, ec) /\
    supported_in a_float 4%Z root no_env 3 openmpi = Some false /\ supported_in a_float 4%Z child ec 3 openmpi = Some true.
Proof.
  set (x := spawned a_float a_read a_unrepr 4%Z child_only (text_of (prog_of no_env [] None))).
  assert (x = Some (match x with Some (c, _) => c | None => conf0 end, match x with Some (_, e) => e | None => no_env end)) as Hx.
  { unfold x. destruct (spawned _ _ _ _ _ _) as [[c e]|] eqn:E; [reflexivity|]. exfalso. vm_compute in E. discriminate. }
  exists (root_of (prog_of no_env [] None)), (text_of (prog_of no_env [] None)), (match x with Some (c, _) => c | None => conf0 end), (match x with Some (_, e) => e | None => no_env end).
  split; [apply got; vm_compute; discriminate|]. split; [exact Hx|]. split; vm_compute; reflexivity.
Qed.
