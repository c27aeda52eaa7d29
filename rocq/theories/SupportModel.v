(** Whether the shared object store is used on the MPI backend: mpi/core/common.py:443-517 (check_mpich_version,
    is_shared_memory_supported). *)
From Coq Require Import ZArith String.
From Verif Require Import Lib ConfigModel SpawnModel.
Local Open Scope list_scope.

(** str.split of one character (mpi/core/common.py:458, 463, 469). *)
Fixpoint splitc (c : nat) (s : text) : list text :=
  match s with
  | [] => [[]]
  | x :: r => if Nat.eqb x c then [] :: splitc c r
              else match splitc c r with [] => [[x]] | w :: ws => (x :: w) :: ws end
  end.

(** Whether [s] begins with [a]: part of the operator in (mpi/core/common.py:465, 505). *)
Fixpoint begins (a s : text) : bool :=
  match a, s with
  | [], _ => true
  | x :: a, y :: s => Nat.eqb x y && begins a s
  | _ :: _, [] => false
  end.

(** a in s (mpi/core/common.py:465, 505). *)
Fixpoint contains (a s : text) : bool :=
  begins a s || match s with [] => false | _ :: r => contains a r end.

(** replace("\t", " ") (mpi/core/common.py:468). *)
Definition tabs (s : text) : text := map (fun c => if Nat.eqb c 9 then 32 else c) s.

(** int() of a text; None: ValueError. Simplified: only digits are read; Python also takes white space, signs and underscores (mpi/core/common.py:459). *)
Definition py_int (t : text) : option Z := if isdigit t then Some (number t) else None.

(** versiontuple (mpi/core/common.py:458-459); None: ValueError. *)
Fixpoint ints (l : list text) : option (list Z) :=
  match l with
  | [] => Some []
  | t :: r => match py_int t, ints r with Some z, Some zs => Some (z :: zs) | _, _ => None end
  end.

(** versiontuple (mpi/core/common.py:458-459). *)
Definition versiontuple (v : text) : option (list Z) := ints (splitc 46 v).

(** a >= b of tuples of int (mpi/core/common.py:471). *)
Fixpoint tuple_ge (a b : list Z) : bool :=
  match a, b with
  | _, [] => true
  | [], _ :: _ => false
  | x :: a, y :: b => if Z.eqb x y then tuple_ge a b else Z.ltb y x
  end.

(** check_mpich_version (mpi/core/common.py:443-471), [lib] is MPI.Get_library_version(); None: IndexError or ValueError. *)
Definition check_mpich_version (lib target : text) : option bool :=
  match filter (contains (codes "MPICH Version:")) (splitc 10 lib) with
  | [] => None
  | raw :: _ =>
      match versiontuple (last (splitc 32 (tabs raw)) []), versiontuple target with
      | Some a, Some b => Some (tuple_ge a b)
      | _, _ => None
      end
  end.

(** is_shared_memory_supported (mpi/core/common.py:474-517), without the warnings: [shared] and [spawn] are what MpiSharedObjectStore.get() and
    MpiSpawn.get() return, [version] is MPI.VERSION; None: it raises. *)
Definition supported (shared : bool) (version : nat) (lib : text) (spawn : bool) : option bool :=
  if negb shared then Some false
  else if Nat.ltb version 3 then Some false
  else if contains (codes "MPICH") lib && spawn then
    match check_mpich_version lib (codes "4.2.0") with None => None | Some ok => Some ok end
  else Some true.

(** The same with the reads of the configuration (mpi/core/common.py:492, 506). *)
Definition supported_in (float_of : text -> option nat) (cpus : Z) (c : conf) (e : environ) (version : nat) (lib : text) : option bool :=
  match cfg_get float_of cpus c e Shared with
  | (c, Some (CBool shared)) =>
      if negb shared then Some false
      else if Nat.ltb version 3 then Some false
      else if contains (codes "MPICH") lib then
        match snd (cfg_get float_of cpus c e Spawn) with
        | Some (CBool spawn) => supported shared version lib spawn
        | _ => None
        end
      else Some true
  | _ => None
  end.
