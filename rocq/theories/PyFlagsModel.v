(** The options of Python that the root hands on to the processes it spawns on the MPI backend: mpi/core/controller/api.py:64-114, 150-151
    (_PY_FLAGS_MAP, _get_py_flags, "-c"). How Python itself (3.11) reads a command line and its environment variables, up to sys.flags,
    sys.warnoptions and sys._xoptions, is modelled as documented in "Command line and environment"; long options are not modelled. *)
From Coq Require Import String Ascii.
From Verif Require Import Lib ConfigModel SpawnModel.
Local Open Scope list_scope.

(** The entries of sys.flags in _PY_FLAGS_MAP (mpi/core/controller/api.py:65-79). *)
Inductive flag :=
| Debug | Inspect | Interactive | Isolated | Optimize | DontWrite | NoUserSite | NoSite | IgnoreEnv | Verbose | BytesWarning
| Quiet | HashRandom | SafePath.

(** The order of _PY_FLAGS_MAP (mpi/core/controller/api.py:65-79). *)
Definition all_flags : list flag :=
  [Debug; Inspect; Interactive; Isolated; Optimize; DontWrite; NoUserSite; NoSite; IgnoreEnv; Verbose; BytesWarning; Quiet;
   HashRandom; SafePath].

(** The letters of _PY_FLAGS_MAP (mpi/core/controller/api.py:65-79). *)
Definition letter (f : flag) : nat :=
  nat_of_ascii match f with
  | Debug => "d" | Inspect => "i" | Interactive => "i" | Isolated => "I" | Optimize => "O" | DontWrite => "B" | NoUserSite => "s"
  | NoSite => "S" | IgnoreEnv => "E" | Verbose => "v" | BytesWarning => "b" | Quiet => "q" | HashRandom => "R" | SafePath => "P"
  end%char.

(** sys.flags, sys.warnoptions, sys._xoptions (None: True), and which seed str hashes have (None: a random one); the program that is
    run (mpi/core/controller/api.py:101-113). *)
Record pystate := {
  flags : flag -> nat;
  warnoptions : list text;
  xoptions : list (text * option text);
  hash_seed : option nat
}.

(** "-" + opt * val (mpi/core/controller/api.py:102-108): not for the letter i. *)
Definition flag_args (s : pystate) : list text :=
  flat_map (fun f =>
    let val := if Nat.eqb (letter f) (nat_of_ascii "i") then 0 else flags s f in
    match val with 0 => [] | _ => [codes "-" ++ repeat (letter f) val] end) all_flags.

(** "-X" + opt, "-X" + opt + "=" + val (mpi/core/controller/api.py:111-113). *)
Definition xoption_arg (x : text * option text) : text :=
  match snd x with None => codes "-X" ++ fst x | Some v => codes "-X" ++ fst x ++ codes "=" ++ v end.

(** _get_py_flags (mpi/core/controller/api.py:88-114). *)
Definition get_py_flags (s : pystate) : list text :=
  flag_args s ++ map (fun o => codes "-W" ++ o) (warnoptions s) ++ map xoption_arg (xoptions s).

(** args of the spawned processes (mpi/core/controller/api.py:150-151, 194-195). *)
Definition spawn_args (s : pystate) (program : text) : list text := get_py_flags s ++ [codes "-c"; program].

(** What the options of a command line amount to (mpi/core/controller/api.py:64-86, Python's own reading). *)
Record opts := { count : flag -> nat; o_warn : list text; o_x : list text }.
(** No options (mpi/core/controller/api.py:101). *)
Definition no_opts : opts := {| count := fun _ => 0; o_warn := []; o_x := [] |}.

(** Equality of flags (mpi/core/controller/api.py:65-79). *)
Definition flag_eq (a b : flag) : {a = b} + {a <> b}.
Proof. decide equality. Defined.

(** One occurrence of a letter; i is inspect and interactive (mpi/core/controller/api.py:65-79). *)
Definition bump (o : opts) (f : flag) : opts :=
  {| count := fun g => if flag_eq g f then S (count o g) else count o g; o_warn := o_warn o; o_x := o_x o |}.
(** -W (mpi/core/controller/api.py:109-110). *)
Definition add_w (o : opts) (t : text) : opts := {| count := count o; o_warn := o_warn o ++ [t]; o_x := o_x o |}.
(** -X (mpi/core/controller/api.py:111-113). *)
Definition add_x (o : opts) (t : text) : opts := {| count := count o; o_warn := o_warn o; o_x := o_x o ++ [t] |}.

(** The flag of a letter (mpi/core/controller/api.py:65-79); i is looked at separately. *)
Definition flag_of (c : nat) : option flag :=
  find (fun f => Nat.eqb (letter f) c)
    [Debug; Isolated; Optimize; DontWrite; NoUserSite; NoSite; IgnoreEnv; Verbose; BytesWarning; Quiet; HashRandom; SafePath].

(** What is left after the letters of one argument: nothing, an option whose argument is the next one, a program, or an error
    (Python's reading of mpi/core/controller/api.py:150-195). *)
Inductive scanned := More (o : opts) | NeedW (o : opts) | NeedX (o : opts) | NeedC (o : opts) | Found (o : opts) (p : text) | Bad.

(** The letters of one argument (Python's reading of mpi/core/controller/api.py:102-113): W, X and c take the rest, or the next
    argument if there is no rest. *)
Fixpoint scan (o : opts) (cs : text) : scanned :=
  match cs with
  | [] => More o
  | c :: r =>
      if Nat.eqb c (nat_of_ascii "W") then match r with [] => NeedW o | _ => More (add_w o r) end
      else if Nat.eqb c (nat_of_ascii "X") then match r with [] => NeedX o | _ => More (add_x o r) end
      else if Nat.eqb c (nat_of_ascii "c") then match r with [] => NeedC o | _ => Found o r end
      else if Nat.eqb c (nat_of_ascii "i") then scan (bump (bump o Inspect) Interactive) r
      else match flag_of c with Some f => scan (bump o f) r | None => Bad end
  end.

(** What is run (Python's reading of mpi/core/controller/api.py:150-195). *)
Inductive program := Command (p : text) | Script (file : text) | Stdin.

(** The whole command line (Python's reading of mpi/core/controller/api.py:150-195); None: Python prints its usage. *)
Fixpoint parse (o : opts) (args : list text) : option (opts * program) :=
  match args with
  | [] => Some (o, Stdin)
  | a :: rest =>
      match a with
      | h :: ((_ :: _) as cs) =>
          if Nat.eqb h (nat_of_ascii "-") then
            match scan o cs with
            | More o' => parse o' rest
            | NeedW o' => match rest with t :: rest' => parse (add_w o' t) rest' | [] => None end
            | NeedX o' => match rest with t :: rest' => parse (add_x o' t) rest' | [] => None end
            | NeedC o' => match rest with t :: _ => Some (o', Command t) | [] => None end
            | Found o' p => Some (o', Command p)
            | Bad => None
            end
          else Some (o, Script a)
      | _ => Some (o, Script a)
      end
  end.

(** The environment: PYTHONDEBUG, PYTHONINSPECT, PYTHONOPTIMIZE, PYTHONVERBOSE, PYTHONDONTWRITEBYTECODE, PYTHONNOUSERSITE and
    PYTHONSAFEPATH as numbers, PYTHONWARNINGS, PYTHONDEVMODE, and PYTHONHASHSEED if it is a number
    (it reaches the spawned processes of mpi/core/controller/api.py:228-234 as MPI hands it on). *)
Record pyenv := { e_flag : flag -> nat; e_warn : list text; e_dev : bool; e_seed : option nat }.

(** No variables set, or all ignored (-E, -I) (mpi/core/controller/api.py:65-79). *)
Definition no_env : pyenv := {| e_flag := fun _ => 0; e_warn := []; e_dev := false; e_seed := None |}.

(** "dev" -> True (mpi/core/controller/api.py:80-84): the position of the first "=" (Python's reading of -X). *)
Fixpoint split_eq (t : text) : text * option text :=
  match t with
  | [] => ([], None)
  | c :: r => if Nat.eqb c (nat_of_ascii "=") then ([], Some r)
              else let (k, v) := split_eq r in (c :: k, v)
  end.

(** An entry of the dictionary is set (sys._xoptions, mpi/core/controller/api.py:111). *)
Fixpoint xset (l : list (text * option text)) (k : text) (v : option text) : list (text * option text) :=
  match l with
  | [] => [(k, v)]
  | (k', v') :: r => if text_eqb k' k then (k', v) :: r else (k', v') :: xset r k v
  end.

(** sys._xoptions (mpi/core/controller/api.py:111). *)
Definition xdict (l : list text) : list (text * option text) :=
  fold_left (fun d t => let (k, v) := split_eq t in xset d k v) l [].

(** An option that is there already is not added again (sys.warnoptions, mpi/core/controller/api.py:109). *)
Definition wappend (l : list text) (t : text) : list text := if existsb (text_eqb t) l then l else l ++ [t].

(** At most one (a flag that is a truth value, mpi/core/controller/api.py:102-108). *)
Definition truth (n : nat) : nat := Nat.min 1 n.

(** Python starts with the environment e and the options o (Python's reading of mpi/core/controller/api.py:64-114). *)
Definition settle (e : pyenv) (o : opts) : pystate :=
  let isolated := truth (count o Isolated) in
  let noenv := truth (count o IgnoreEnv + isolated) in
  let e' := match noenv with 0 => e | _ => no_env end in
  let xs := xdict (o_x o) in
  let dev := e_dev e' || existsb (fun x => text_eqb (fst x) (codes "dev")) xs in
  let seed := match count o HashRandom with 0 => e_seed e' | _ => None end in
  {| flags := fun f =>
       match f with
       | Debug | Optimize | Verbose | Inspect => Nat.max (count o f) (e_flag e' f)
       | Isolated => count o Isolated
       | DontWrite => truth (count o f + e_flag e' f)
       | NoUserSite | SafePath => truth (count o f + e_flag e' f + isolated)
       | NoSite => truth (count o f)
       | IgnoreEnv => noenv
       | Interactive | BytesWarning | Quiet => count o f
       | HashRandom => match seed with Some 0 => 0 | _ => 1 end
       end;
     warnoptions :=
       fold_left wappend
         ((if dev then [codes "default"] else []) ++ e_warn e' ++ o_warn o ++
          match count o BytesWarning with 0 => [] | 1 => [codes "default::BytesWarning"] | _ => [codes "error::BytesWarning"] end) [];
     xoptions := xs;
     hash_seed := seed |}.

(** A Python process: its state and what it runs (Python's reading of mpi/core/controller/api.py:150-195, 228-234). *)
Definition python (e : pyenv) (args : list text) : option (pystate * program) :=
  match parse no_opts args with None => None | Some (o, p) => Some (settle e o, p) end.
