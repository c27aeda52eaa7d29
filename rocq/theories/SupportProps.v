(** C77: when the shared object store is used (MPI). *)
From Coq Require Import ZArith String.
From Verif Require Import Lib ConfigModel SpawnModel SpawnSpec SpawnCases SupportModel SupportSpec SupportProofs SupportCases.
From Coq Require Import List.
Import ListNotations.
Local Open Scope list_scope.

(** With MPICH of any version but "4.2", whatever else the library says about itself: the shared object store is used if and only if the user
    asked for it, MPI is at least 3 and, when processes are spawned, MPICH is at least 4.2.0. What is missing from the property: versions that
    are not numbers with dots, and 4.2 written without the last number. *)
Theorem C77_mpich_partial :
  forall lib vs shared version spawn, mpich_library lib vs -> vs <> [] -> vs <> [4; 2] ->
    exists b, supported shared version lib spawn = Some b /\
      (b = true <-> shared = true /\ 3 <= version /\ (spawn = true -> at_least_4_2_0 vs)).
Proof. exact mpich_exact. Qed.
Print Assumptions C77_mpich_partial.

(** With any other library. *)
Theorem C77_other :
  forall lib shared version spawn, ~ occurs (codes "MPICH") lib ->
    exists b, supported shared version lib spawn = Some b /\ (b = true <-> shared = true /\ 3 <= version).
Proof. exact other_exact. Qed.
Print Assumptions C77_other.

Example C77_case :
  mpich_library (mpich (dotted [4; 1; 2])) [4; 1; 2] /\ mpich_library (mpich (dotted [10; 0; 1])) [10; 0; 1] /\
  supported true 3 (mpich (dotted [4; 1; 2])) true = Some false /\ supported true 3 (mpich (dotted [4; 1; 2])) false = Some true /\
  supported true 3 (mpich (dotted [10; 0; 1])) true = Some true /\
  ~ occurs (codes "MPICH") openmpi /\ supported true 3 openmpi true = Some true /\ supported true 2 openmpi true = Some false.
Proof. exact c77_case. Qed.

(** The root and a spawned process decide alike, if both parameters that matter were set at the root or have their defaults on both sides, for
    every history of the root and every library (the same in both). *)
Theorem C77_agree_partial :
  forall (float_of : text -> option nat) (show_float : nat -> text) (read_float : text -> option nat)
         (repr_env : list (text * text) -> text) (unrepr_env : text -> option (list (text * text) * text))
         (root_cpus child_cpus : Z) (e ec : environ) (us : list use) (rt : option (list (text * text))) (root : conf) (prog : text)
         (version : nat) (lib : text),
    repr_contract repr_env unrepr_env ->
    program float_of show_float repr_env root_cpus e (uses float_of root_cpus e us) rt = Some (root, prog) ->
    (forall h, value (root Hosts) = Some (CStr h) -> plain h) ->
    (forall f, value (root Backoff) = Some (CFloat f) -> literal_float show_float read_float f) ->
    (forall l n v, rt = Some l -> In (n, v) l -> plain n /\ plain v) ->
    settled root_cpus child_cpus root (assigned rt ec) Shared ->
    settled root_cpus child_cpus root (assigned rt ec) Spawn ->
    exists child, spawned float_of read_float unrepr_env child_cpus ec prog = Some (child, assigned rt ec) /\
      supported_in float_of child_cpus child (assigned rt ec) version lib = supported_in float_of root_cpus root e version lib.
Proof. exact agree. Qed.
Print Assumptions C77_agree_partial.

Example C77_agree_case :
  let root := root_of (prog_of env_root us1 rt1) in
  let ec := assigned rt1 no_env in
  settled 4%Z 8%Z root ec Shared /\ settled 4%Z 8%Z root ec Spawn /\
  supported_in a_float 4%Z root env_root 3 (mpich (dotted [4; 2; 0])) = Some true.
Proof. exact c77_agree_case. Qed.

(** Version 4.2 is taken for an older one than 4.2.0. *)
Theorem C77_two_numbers_refuted :
  mpich_library (mpich (dotted [4; 2])) [4; 2] /\ at_least_4_2_0 [4; 2] /\ supported true 3 (mpich (dotted [4; 2])) true = Some false.
Proof. exact c77_two_numbers. Qed.
Print Assumptions C77_two_numbers_refuted.

(** A release candidate of MPICH (ValueError) and a library that speaks of MPICH in other words (IndexError). *)
Theorem C77_raises_refuted : supported true 3 (mpich (codes "4.2.0rc1")) true = None /\ supported true 3 cray true = None.
Proof. exact c77_raises. Qed.
Print Assumptions C77_raises_refuted.

(** An environment variable of the other host switches the store on there and not at the root. *)
Theorem C77_disagree_refuted :
  exists root prog child ec,
    program a_float a_show a_repr 4%Z no_env (uses a_float 4%Z no_env []) None = Some (root, prog) /\
    spawned a_float a_read a_unrepr 4%Z child_only prog = Some (child, ec) /\
    supported_in a_float 4%Z root no_env 3 openmpi = Some false /\ supported_in a_float 4%Z child ec 3 openmpi = Some true.
Proof. exact c77_disagree. Qed.
Print Assumptions C77_disagree_refuted.
