(** How the configuration gets to the processes that the root spawns on the MPI backend: the command line is a Python program that the root
    prints and the spawned processes run. Models mpi/core/controller/api.py:142-232 (init) and config/backends/mpi/envvars.py; Python's
    reading of such programs is modelled by a parser of the statements that occur in them. *)
From Coq Require Import ZArith String Ascii DecimalString DecimalZ.
From Verif Require Import Lib ConfigModel.
Local Open Scope list_scope.

(** The parameters that are handed on (mpi/core/controller/api.py:157-185), in the order in which they are looked at. *)
Inductive pname := Spawn | Hosts | Cpus | PickleThr | Backoff | Log | Shared | SharedMemory | ServiceMemory | SharedThr.

(** Equality of parameter classes (mpi/core/controller/api.py:157-185). *)
Definition pname_eq (a b : pname) : {a = b} + {a <> b}.
Proof. decide equality. Defined.

(** A character string as a text; not code, applied to the text of mpi/core/controller/api.py:152-200. *)
Definition codes (s : string) : text := map nat_of_ascii (list_ascii_of_string s).

(** The names of the classes (config/backends/mpi/envvars.py:10-110, config/backends/common/envvars.py:73). *)
Definition class_name (p : pname) : text :=
  codes match p with
        | Spawn => "MpiSpawn" | Hosts => "MpiHosts" | Cpus => "CpuCount" | PickleThr => "MpiPickleThreshold" | Backoff => "MpiBackoff"
        | Log => "MpiLog" | Shared => "MpiSharedObjectStore" | SharedMemory => "MpiSharedObjectStoreMemory"
        | ServiceMemory => "MpiSharedServiceMemory" | SharedThr => "MpiSharedObjectStoreThreshold"
        end.

(** varname (config/backends/mpi/envvars.py:14-110, config/backends/common/envvars.py:76). *)
Definition varname (p : pname) : text :=
  codes match p with
        | Spawn => "UNIDIST_MPI_SPAWN" | Hosts => "UNIDIST_MPI_HOSTS" | Cpus => "UNIDIST_CPUS" | PickleThr => "UNIDIST_MPI_PICKLE_THRESHOLD"
        | Backoff => "UNIDIST_MPI_BACKOFF" | Log => "UNIDIST_MPI_LOG" | Shared => "UNIDIST_MPI_SHARED_OBJECT_STORE"
        | SharedMemory => "UNIDIST_MPI_SHARED_OBJECT_STORE_MEMORY" | ServiceMemory => "UNIDIST_MPI_SHARED_SERVICE_MEMORY"
        | SharedThr => "UNIDIST_MPI_SHARED_OBJECT_STORE_THRESHOLD"
        end.

(** The environment variables of a process (os.environ; config/parameter.py:242-256). *)
Definition environ := text -> option text.

(** os.environ[n] = v (mpi/core/controller/api.py:193-195). *)
Definition setenv (e : environ) (n v : text) : environ := fun m => if text_eqb m n then Some v else e m.

(** The states of all parameters of a process (config/parameter.py:138-152). *)
Definition conf := pname -> pstate.

(** After the import (config/parameter.py:138-152). *)
Definition conf0 : conf := fun _ => fresh.

(** One parameter's class attributes change (config/parameter.py:188, 206-212, 232-233). *)
Definition cset (c : conf) (p : pname) (st : pstate) : conf := fun q => if pname_eq q p then st else c q.

(** The number of the float 0.0001 (config/backends/mpi/envvars.py:75). *)
Definition backoff_default : nat := 0.

Section Spawn.

(** float() of a text, as in ConfigModel (config/parameter.py:69). *)
Variable float_of : text -> option nat.

(** str() of a float, and how Python reads the text of a float literal; None: it is none (mpi/core/controller/api.py:166). *)
Variable show_float : nat -> text.
Variable read_float : text -> option nat.

(** repr of a runtime environment, and how Python reads it at the beginning of a text (mpi/core/controller/api.py:187). *)
Variable repr_env : list (text * text) -> text.
Variable unrepr_env : text -> option (list (text * text) * text).

(** multiprocessing.cpu_count() on this machine (config/backends/common/envvars.py:79-89). *)
Variable cpus : Z.

(** Types and defaults (config/backends/mpi/envvars.py:10-110, config/backends/common/envvars.py:73-89). *)
Definition param_of (p : pname) : param :=
  match p with
  | Spawn => mkParam TBool None (Some (CBool true))
  | Hosts => mkParam TExactStr None (Some CNone)
  | Cpus => mkParam TInt None (Some (CInt cpus))
  | PickleThr => mkParam TInt None (Some (CInt 262144))
  | Backoff => mkParam TFloat None (Some (CFloat backoff_default))
  | Log => mkParam TBool None (Some (CBool false))
  | Shared => mkParam TBool None (Some (CBool false))
  | SharedMemory => mkParam TInt None (Some CNone)
  | ServiceMemory => mkParam TInt None (Some CNone)
  | SharedThr => mkParam TInt None (Some (CInt 100000))
  end.

(** get of a parameter: config/parameter.py:190-218; MpiPickleThreshold has its own (config/backends/mpi/envvars.py:47-62). *)
Definition cfg_get (c : conf) (e : environ) (p : pname) : conf * option cval :=
  match p with
  | PickleThr =>
      let '((s1, s2, s3), a) := pickle_get float_of (param_of Shared) (param_of SharedThr) (param_of PickleThr)
                                  (c Shared, c SharedThr, c PickleThr) (e (varname Shared), e (varname SharedThr), e (varname PickleThr)) in
      (cset (cset (cset c Shared s1) SharedThr s2) PickleThr s3, a)
  | _ => let (st, a) := get float_of (param_of p) (c p) (e (varname p)) in (cset c p st, a)
  end.

(** get_value_source (config/parameter.py:164-177): the get is that of the class. *)
Definition cfg_source (c : conf) (e : environ) (p : pname) : conf * option source :=
  match value_source (c p) with
  | Some s => (c, Some s)
  | None => let (c, a) := cfg_get c e p in (c, match a with None => None | Some _ => value_source (c p) end)
  end.

(** put (config/parameter.py:220-233); false: it raises. *)
Definition cfg_put (c : conf) (p : pname) (v : cval) : conf * bool :=
  let (st, ok) := put float_of (param_of p) (c p) v in (cset c p st, ok).

(** What a program does with its configuration before init (config/parameter.py:164-233). *)
Inductive use := UGet (p : pname) | UPut (p : pname) (v : cval) | USource (p : pname).

(** One of these calls (config/parameter.py:164-233). *)
Definition use_step (e : environ) (c : conf) (u : use) : conf :=
  match u with
  | UGet p => fst (cfg_get c e p)
  | UPut p v => fst (cfg_put c p v)
  | USource p => fst (cfg_source c e p)
  end.

(** All of them (config/parameter.py:164-233). *)
Definition uses (e : environ) (us : list use) : conf := fold_left (use_step e) us conf0.

(** str() of an int (mpi/core/controller/api.py:162). *)
Definition show_int (z : Z) : text := codes (NilEmpty.string_of_int (Z.to_int z)).

(** What an f-string makes of a value (mpi/core/controller/api.py:158-185). MpiHosts has quotes around it (160). *)
Definition show (v : cval) : text :=
  match v with
  | CNone => codes "None"
  | CStr s => codes "'" ++ s ++ codes "'"
  | CBool true => codes "True"
  | CBool false => codes "False"
  | CInt z => show_int z
  | CFloat f => show_float f
  | COther _ => []
  end.

(** cfg.X.put(v) (mpi/core/controller/api.py:158-185). *)
Definition put_line (p : pname) (v : cval) : text := codes "cfg." ++ class_name p ++ codes ".put(" ++ show v ++ codes ")".

(** The parameters with a value that is not the default (mpi/core/controller/api.py:157-185); None: one of the calls raises. *)
Fixpoint put_lines (e : environ) (c : conf) (ps : list pname) : option (conf * list text) :=
  match ps with
  | [] => Some (c, [])
  | p :: r =>
      match cfg_source c e p with
      | (_, None) => None
      | (c, Some DEFAULT) => put_lines e c r
      | (c, Some _) =>
          match cfg_get c e p with
          | (_, None) => None
          | (c, Some v) => match put_lines e c r with None => None | Some (c, l) => Some (c, put_line p v :: l) end
          end
      end
  end.

(** The order of mpi/core/controller/api.py:157-185. *)
Definition handed_on : list pname := [Spawn; Hosts; Cpus; PickleThr; Backoff; Log; Shared; SharedMemory; ServiceMemory; SharedThr].

(** os.environ['n'] = 'v' (mpi/core/controller/api.py:193-195); values are texts here. *)
Definition env_line (nv : text * text) : text :=
  codes "os.environ['" ++ fst nv ++ codes "'] = '" ++ snd nv ++ codes "'".

(** The runtime environment: {} (None) or {"env_vars": ...} (mpi/core/controller/api.py:186-197). *)
Definition runtime_lines (rt : option (list (text * text))) : list text :=
  match rt with
  | None => []
  | Some l => (codes "cfg.MpiRuntimeEnv.put(" ++ repr_env l ++ codes ")") :: codes "import os" :: map env_line l
  end.

(** "; ".join (mpi/core/controller/api.py:199). *)
Fixpoint join (l : list text) : text :=
  match l with [] => [] | [s] => s | s :: r => s ++ codes "; " ++ join r end.

(** The program of the spawned processes (mpi/core/controller/api.py:152-200). *)
Definition program (e : environ) (c : conf) (rt : option (list (text * text))) : option (conf * text) :=
  match put_lines e c handed_on with
  | None => None
  | Some (c, l) =>
      Some (c, join ([codes "import unidist"; codes "import unidist.config as cfg"; codes "cfg.Backend.put('mpi')"] ++ l ++
                     runtime_lines rt ++ [codes "unidist.init()"]))
  end.

(** The statements of such programs (mpi/core/controller/api.py:152-198). *)
Inductive stmt :=
| SImport
| SImportCfg
| SBackend (v : cval)
| SPut (p : pname) (v : cval)
| SRuntime (l : list (text * text))
| SImportOs
| SEnv (n v : text)
| SInit.

(** Python's reading of the program: the text begins with [a]; not code, applied to the text of mpi/core/controller/api.py:152-200. *)
Fixpoint after (a s : text) : option text :=
  match a, s with
  | [], _ => Some s
  | x :: a, y :: s => if Nat.eqb x y then after a s else None
  | _ :: _, [] => None
  end.

(** The rest of a string literal in single quotes; None: a syntax error. Of the escapes, those that stand for one of four characters are
    read; a backslash before a character that begins no escape stays. Python's lexer; not code, applied to the text of mpi/core/controller/api.py:152-200. *)
Fixpoint read_str (s : text) : option (text * text) :=
  match s with
  | [] => None
  | c :: r =>
      if Nat.eqb c 39 then Some ([], r)
      else if existsb (Nat.eqb c) [0; 10; 13] then None
      else if Nat.eqb c 92 then
        match r with
        | [] => None
        | d :: r =>
            let out := if Nat.eqb d 110 then Some [10] else if Nat.eqb d 116 then Some [9] else if Nat.eqb d 92 then Some [92]
                       else if Nat.eqb d 39 then Some [39]
                       else if existsb (Nat.eqb d) (codes "abfrvxNuU01234567" ++ [0; 10; 13; 34]) then None else Some [92; d] in
            match out, read_str r with Some o, Some (t, rest) => Some (o ++ t, rest) | _, _ => None end
        end
      else match read_str r with Some (t, rest) => Some (c :: t, rest) | None => None end
  end.

(** The longest beginning whose characters are in a set; not code, applied to the text of mpi/core/controller/api.py:152-200. *)
Fixpoint token (ok : nat -> bool) (s : text) : text * text :=
  match s with
  | [] => ([], [])
  | c :: r => if ok c then let (t, rest) := token ok r in (c :: t, rest) else ([], s)
  end.

(** Characters of numbers; not code, applied to the text of mpi/core/controller/api.py:152-200. *)
Definition number_char (c : nat) : bool := is_digit c || existsb (Nat.eqb c) (codes "+-.e").

(** Characters of names; not code, applied to the text of mpi/core/controller/api.py:152-200. *)
Definition name_char (c : nat) : bool :=
  is_digit c || (Nat.leb 65 c && Nat.leb c 90) || (Nat.leb 97 c && Nat.leb c 122) || Nat.eqb c 95.

(** A text as a character string; not code, applied to the text of mpi/core/controller/api.py:152-200. *)
Definition string_of (t : text) : string := string_of_list_ascii (map ascii_of_nat t).

(** A number: an int, if it is written as one, or a float. Python's lexer; not code, applied to the text of mpi/core/controller/api.py:152-200. *)
Definition read_number (t : text) : option cval :=
  if forallb (fun c => is_digit c || Nat.eqb c 45) t then
    match t with [] => None | _ => option_map (fun i => CInt (Z.of_int i)) (NilEmpty.int_of_string (string_of t)) end
  else option_map CFloat (read_float t).

(** A literal. Python's parser; not code, applied to the text of mpi/core/controller/api.py:152-200. *)
Definition read_lit (s : text) : option (cval * text) :=
  match s with
  | 39 :: r => match read_str r with Some (t, rest) => Some (CStr t, rest) | None => None end
  | _ =>
      match after (codes "True") s with
      | Some r => Some (CBool true, r)
      | None =>
          match after (codes "False") s with
          | Some r => Some (CBool false, r)
          | None =>
              match after (codes "None") s with
              | Some r => Some (CNone, r)
              | None => let (t, r) := token number_char s in option_map (fun v => (v, r)) (read_number t)
              end
          end
      end
  end.

(** The class with this name (config/__init__.py); Python's attribute access; not code, applied to the text of mpi/core/controller/api.py:152-200. *)
Definition class_of (t : text) : option pname := find (fun p => text_eqb t (class_name p)) handed_on.

(** A call of put with a literal; not code, applied to the text of mpi/core/controller/api.py:152-200. *)
Definition read_put (s : text) : option (cval * text) :=
  match after (codes ".put(") s with
  | None => None
  | Some s => match read_lit s with
              | None => None
              | Some (v, s) => option_map (fun r => (v, r)) (after (codes ")") s)
              end
  end.

(** A statement that begins with cfg. ; not code, applied to the text of mpi/core/controller/api.py:152-200. *)
Definition read_cfg (s : text) : option (stmt * text) :=
  let (n, s) := token name_char s in
  if text_eqb n (codes "MpiRuntimeEnv") then
    match after (codes ".put(") s with
    | None => None
    | Some s => match unrepr_env s with
                | None => None
                | Some (l, s) => option_map (fun r => (SRuntime l, r)) (after (codes ")") s)
                end
    end
  else if text_eqb n (codes "Backend") then option_map (fun x => (SBackend (fst x), snd x)) (read_put s)
  else match class_of n with
       | None => None
       | Some p => option_map (fun x => (SPut p (fst x), snd x)) (read_put s)
       end.

(** A statement that begins with os.environ[' ; not code, applied to the text of mpi/core/controller/api.py:152-200. *)
Definition read_env (s : text) : option (stmt * text) :=
  match read_str s with
  | None => None
  | Some (n, s) =>
      match after (codes "] = '") s with
      | None => None
      | Some s => match read_str s with None => None | Some (v, s) => Some (SEnv n v, s) end
      end
  end.

(** A statement; not code, applied to the text of mpi/core/controller/api.py:152-200. *)
Definition read_stmt (s : text) : option (stmt * text) :=
  match after (codes "cfg.") s with
  | Some s => read_cfg s
  | None =>
      match after (codes "os.environ['") s with
      | Some s => read_env s
      | None =>
          match after (codes "import unidist.config as cfg") s with
          | Some s => Some (SImportCfg, s)
          | None =>
              match after (codes "import unidist") s with
              | Some s => Some (SImport, s)
              | None =>
                  match after (codes "import os") s with
                  | Some s => Some (SImportOs, s)
                  | None => match after (codes "unidist.init()") s with Some s => Some (SInit, s) | None => None end
                  end
              end
          end
      end
  end.

(** A program: statements with "; " between them; None: a syntax error. [n] bounds the number of statements. Not code, applied to the text of
    mpi/core/controller/api.py:152-200. *)
Fixpoint read_program (n : nat) (s : text) : option (list stmt) :=
  match n with
  | 0 => None
  | S n =>
      match read_stmt s with
      | None => None
      | Some (x, []) => Some [x]
      | Some (x, s) => match after (codes "; ") s with None => None | Some s => option_map (cons x) (read_program n s) end
      end
  end.

(** The names that are bound: unidist, cfg, os (mpi/core/controller/api.py:153-154, 188). *)
Record names := mkNames { n_unidist : bool; n_cfg : bool; n_os : bool }.

(** Running it up to init: the configuration and the environment that init finds; None: it raises or never gets there. Backend is a parameter
    of its own (config/backends/common/envvars.py:13-70) that only has to accept 'mpi'; MpiRuntimeEnv stores its value
    (config/backends/mpi/envvars.py:129-143). *)
Fixpoint execute (im : names) (c : conf) (e : environ) (l : list stmt) : option (conf * environ) :=
  match l with
  | [] => None
  | SImport :: r => execute (mkNames true (n_cfg im) (n_os im)) c e r
  | SImportCfg :: r => execute (mkNames (n_unidist im) true (n_os im)) c e r
  | SImportOs :: r => execute (mkNames (n_unidist im) (n_cfg im) true) c e r
  | SInit :: _ => if n_unidist im then Some (c, e) else None
  | SPut p v :: r => let (c, ok) := cfg_put c p v in if n_cfg im && ok then execute im c e r else None
  | SBackend v :: r =>
      match v with
      | CStr s => if n_cfg im && text_eqb (lower (strip s)) (codes "mpi") then execute im c e r else None
      | _ => None
      end
  | SEnv n v :: r => if n_os im then execute im c (setenv e n v) r else None
  | SRuntime _ :: r => if n_cfg im then execute im c e r else None
  end.

(** A spawned process, whose environment is [e], with this program (mpi/core/controller/api.py:225-231). *)
Definition spawned (e : environ) (prog : text) : option (conf * environ) :=
  match read_program (S (List.length prog)) prog with None => None | Some l => execute (mkNames false false false) conf0 e l end.

End Spawn.
