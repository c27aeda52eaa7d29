(** What C76 speaks about: texts that can stand between single quotes, contracts of str() and repr(), when a parameter is the same in a spawned
    process. *)
From Coq Require Import ZArith String Ascii.
From Verif Require Import Lib ConfigModel SpawnModel.
Local Open Scope list_scope.

(** Texts without quotes, backslashes, line ends and null characters. *)
Definition plain (s : text) : Prop := forall c, In c s -> c <> 39 /\ c <> 92 /\ c <> 10 /\ c <> 13 /\ c <> 0.

(** The text of a float is a float literal of this value (not so for inf and nan). *)
Definition literal_float (show_float : nat -> text) (read_float : text -> option nat) (f : nat) : Prop :=
  (forall c, In c (show_float f) -> number_char c = true) /\
  (exists c, In c (show_float f) /\ is_digit c = false /\ c <> 45) /\
  read_float (show_float f) = Some f.

(** What repr prints is read as the same object, whatever follows. *)
Definition repr_contract (repr_env : list (text * text) -> text) (unrepr_env : text -> option (list (text * text) * text)) : Prop :=
  forall l rest, unrepr_env (repr_env l ++ rest) = Some (l, rest).

(** The environment after the assignments of a runtime environment. *)
Definition assigned (rt : option (list (text * text))) (e : environ) : environ :=
  match rt with None => e | Some l => fold_left (fun e nv => fun n => if text_eqb n (fst nv) then Some (snd nv) else e n) l e end.

(** A parameter that was set at the root (by put or by the environment), or that has the same default in the spawned process and no environment
    variable there. *)
Definition settled (root_cpus child_cpus : Z) (root : conf) (child_env : environ) (p : pname) : Prop :=
  value_source (root p) <> Some DEFAULT \/
  (child_env (varname p) = None /\ default (param_of child_cpus p) = default (param_of root_cpus p)).

(** Whether the shared object store is on, as the program would see it now. *)
Definition shared_on (float_of : text -> option nat) (cpus : Z) (e : environ) (c : conf) : Prop :=
  snd (cfg_get float_of cpus c e Shared) = Some (CBool true).

(** The program did not read MpiPickleThreshold while the shared object store was on. *)
Definition not_read_shared (float_of : text -> option nat) (cpus : Z) (e : environ) (us : list use) : Prop :=
  forall us1 u us2, us = us1 ++ u :: us2 -> (u = UGet PickleThr \/ u = USource PickleThr) ->
    ~ shared_on float_of cpus e (uses float_of cpus e us1).
