(** C83: the processes that the root spawns on the MPI backend run under the options of Python that the root was started with.
    [python e args] is a Python process started with environment [e] and command line [args]: its sys.flags, sys.warnoptions, sys._xoptions
    and hash seed, and what it runs. [spawn_args s program] is the command line with which a root in state [s] spawns processes. *)
From Coq Require Import String Ascii.
From Verif Require Import Lib ConfigModel SpawnModel PyFlagsModel PyFlagsProofs PyFlagsCases.
Local Open Scope list_scope.

(** However the root was started, unless an option -W or -X was given an empty argument: the spawned process runs the program, with the
    same flags except for those of interactive mode, the same warning options in the same order and the same -X options; also if the
    environment variables do not reach it (except for hash randomisation). The hash seed is the same unless PYTHONHASHSEED is a positive
    number. *)
Theorem C83_same_python_partial : forall e e' args s p prog,
  python e args = Some (s, p) -> (e' = e \/ e' = no_env) ->
  ~ In [] (warnoptions s) -> ~ In ([], None) (xoptions s) ->
  exists s', python e' (spawn_args s prog) = Some (s', Command prog) /\
    warnoptions s' = warnoptions s /\ xoptions s' = xoptions s /\
    (forall f, f <> Inspect -> f <> Interactive -> (f <> HashRandom \/ e' = e) -> flags s' f = flags s f) /\
    flags s' Interactive = 0 /\ flags s' Inspect <= e_flag e' Inspect /\
    (e' = e -> (forall n, hash_seed s <> Some (S n)) -> hash_seed s' = hash_seed s).
Proof. exact same_python. Qed.
Print Assumptions C83_same_python_partial.

Example C83_case : exists s p s', python penv pargs = Some (s, p) /\ p = Script (codes "prog.py") /\
  flags s Optimize = 2 /\ flags s Interactive = 1 /\ hash_seed s = Some 0 /\
  warnoptions s = map codes ["default"; "ignore"; "error"; "default::BytesWarning"]%string /\
  xoptions s = [(codes "dev", None); (codes "a", Some (codes "2"))] /\
  spawn_args s (codes "x") =
    map codes ["-OO"; "-B"; "-b"; "-Wdefault"; "-Wignore"; "-Werror"; "-Wdefault::BytesWarning"; "-Xdev"; "-Xa=2"; "-c"; "x"]%string /\
  python penv (spawn_args s (codes "x")) = Some (s', Command (codes "x")) /\
  flags s' Optimize = 2 /\ flags s' Interactive = 0 /\ warnoptions s' = warnoptions s /\ xoptions s' = xoptions s.
Proof. exact flags_case. Qed.

(** Whenever the user has fixed the hash seed with a positive PYTHONHASHSEED, the spawned processes have random seeds: sys.flags then says
    that hashes are randomised, the root hands on -R, and -R overrides the variable. *)
Theorem C83_hash_seed_refuted : forall e args s p prog n,
  python e args = Some (s, p) -> ~ In [] (warnoptions s) -> ~ In ([], None) (xoptions s) -> hash_seed s = Some (S n) ->
  exists s', python e (spawn_args s prog) = Some (s', Command prog) /\ hash_seed s' = None.
Proof. exact seed_lost. Qed.
Print Assumptions C83_hash_seed_refuted.

Example C83_seed_case : exists s s', python seed_env [codes "prog.py"] = Some (s, Script (codes "prog.py")) /\ hash_seed s = Some 5 /\
  warnoptions s = [] /\ xoptions s = [] /\ spawn_args s (codes "x") = [codes "-R"; codes "-c"; codes "x"] /\
  python seed_env (spawn_args s (codes "x")) = Some (s', Command (codes "x")) /\ hash_seed s' = None.
Proof. exact seed_case. Qed.

(** After python -X "" the spawned processes take -c for an option and the program for a file name. *)
Theorem C83_empty_option_refuted : exists e args s p prog, python e args = Some (s, p) /\ xoptions s = [([], None)] /\
  exists s', python e (spawn_args s prog) = Some (s', Script prog).
Proof. exact empty_option. Qed.
Print Assumptions C83_empty_option_refuted.

(** With PYTHONINSPECT the spawned processes go on interactively after the program, although the letter i is not handed on so that they
    do not. *)
Theorem C83_inspect_refuted : exists e args s p prog s', python e args = Some (s, p) /\
  ~ In [] (warnoptions s) /\ ~ In ([], None) (xoptions s) /\
  python e (spawn_args s prog) = Some (s', Command prog) /\ flags s' Inspect = 1.
Proof. exact inspect_env. Qed.
Print Assumptions C83_inspect_refuted.
