(** What C77 speaks about: library versions as texts and as numbers. *)
From Coq Require Import ZArith String DecimalString.
From Verif Require Import Lib ConfigModel SpawnModel.
Local Open Scope list_scope.

(** A number in decimal digits. *)
Definition decimal (n : nat) : text := codes (NilEmpty.string_of_uint (Nat.to_uint n)).

(** Numbers with dots between them. *)
Fixpoint dotted (vs : list nat) : text :=
  match vs with [] => [] | [v] => decimal v | v :: r => decimal v ++ 46 :: dotted r end.

(** One text occurs in another. *)
Definition occurs (a s : text) : Prop := exists x y, s = x ++ a ++ y.

(** What MPICH says about itself: some lines; the first that has "MPICH Version:" ends with a blank or a tab and the version. *)
Definition mpich_library (lib : text) (vs : list nat) : Prop :=
  exists (before : list text) (line : text) (blank : nat) (rest : text),
    lib = flat_map (fun l : text => l ++ [10]) before ++ (line ++ blank :: dotted vs) ++ rest /\
    (forall l, In l before -> ~ In 10 l /\ ~ occurs (codes "MPICH Version:") l) /\
    ~ In 10 line /\ occurs (codes "MPICH Version:") line /\ (blank = 32 \/ blank = 9) /\
    (rest = [] \/ exists r, rest = 10 :: r).

(** At least 4.2.0; numbers that are not given are 0. *)
Definition at_least_4_2_0 (vs : list nat) : Prop := 4 < nth 0 vs 0 \/ (nth 0 vs 0 = 4 /\ 2 <= nth 1 vs 0).
