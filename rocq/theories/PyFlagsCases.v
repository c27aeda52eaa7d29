From Coq Require Import String Ascii.
From Verif Require Import Lib ConfigModel SpawnModel PyFlagsModel PyFlagsProofs.
Local Open Scope list_scope.

Theorem seed_lost e args s p prog n :
  python e args = Some (s, p) -> ~ In [] (warnoptions s) -> ~ In ([], None) (xoptions s) -> hash_seed s = Some (S n) ->
  exists s', python e (spawn_args s prog) = Some (s', Command prog) /\ hash_seed s' = None.
Proof.
  intros HP HW HX HS. unfold python in HP. destruct (parse no_opts args) as [[o q]|]; [|discriminate].
  injection HP as Hs _. destruct (parse_spawn s prog HW HX) as (o' & E & C & W & X).
  exists (settle e o'). unfold python. rewrite E. split; [reflexivity|].
  assert (F : flags s HashRandom = 1).
  { transitivity (match hash_seed s with Some 0 => 0 | _ => 1 end); [subst s; reflexivity|]. rewrite HS. reflexivity. }
  unfold settle. cbn [hash_seed]. rewrite (C HashRandom). change (handed HashRandom) with true. cbn iota. rewrite F. reflexivity.
Qed.

(** python -OO -b -W error -X dev -X a=1 -X a=2 prog.py, with PYTHONWARNINGS=ignore and PYTHONHASHSEED=0. *)
Definition penv : pyenv := {| e_flag := fun f => match f with DontWrite => 1 | _ => 0 end; e_warn := [codes "ignore"]; e_dev := false; e_seed := Some 0 |}.
Definition pargs : list text :=
  map codes ["-OOb"; "-W"; "error"; "-Xdev"; "-i"; "-Xa=1"; "-X"; "a=2"; "prog.py"]%string.

Lemma flags_case : exists s p s', python penv pargs = Some (s, p) /\ p = Script (codes "prog.py") /\
  flags s Optimize = 2 /\ flags s Interactive = 1 /\ hash_seed s = Some 0 /\
  warnoptions s = map codes ["default"; "ignore"; "error"; "default::BytesWarning"]%string /\
  xoptions s = [(codes "dev", None); (codes "a", Some (codes "2"))] /\
  spawn_args s (codes "x") =
    map codes ["-OO"; "-B"; "-b"; "-Wdefault"; "-Wignore"; "-Werror"; "-Wdefault::BytesWarning"; "-Xdev"; "-Xa=2"; "-c"; "x"]%string /\
  python penv (spawn_args s (codes "x")) = Some (s', Command (codes "x")) /\
  flags s' Optimize = 2 /\ flags s' Interactive = 0 /\ warnoptions s' = warnoptions s /\ xoptions s' = xoptions s.
Proof.
  exists (match python penv pargs with Some (s, _) => s | None => settle penv no_opts end).
  exists (Script (codes "prog.py")).
  exists (match python penv pargs with
          | Some (s, _) => match python penv (spawn_args s (codes "x")) with Some (s', _) => s' | None => s end
          | None => settle penv no_opts end).
  repeat match goal with |- _ /\ _ => split end; vm_compute; reflexivity.
Qed.

(** python -X "" prog.py *)
Lemma empty_option : exists e args s p prog, python e args = Some (s, p) /\ xoptions s = [([], None)] /\
  exists s', python e (spawn_args s prog) = Some (s', Script prog).
Proof.
  exists no_env, [codes "-X"; []; codes "prog.py"].
  exists (match python no_env [codes "-X"; []; codes "prog.py"] with Some (s, _) => s | None => settle no_env no_opts end).
  exists (Script (codes "prog.py")), (codes "import unidist").
  split; [vm_compute; reflexivity|]. split; [vm_compute; reflexivity|].
  eexists. vm_compute. reflexivity.
Qed.

(** PYTHONINSPECT=1 *)
Lemma inspect_env : exists e args s p prog s', python e args = Some (s, p) /\
  ~ In [] (warnoptions s) /\ ~ In ([], None) (xoptions s) /\
  python e (spawn_args s prog) = Some (s', Command prog) /\ flags s' Inspect = 1.
Proof.
  set (e := {| e_flag := fun f => match f with Inspect => 1 | _ => 0 end; e_warn := []; e_dev := false; e_seed := None |}).
  exists e, [codes "prog.py"].
  exists (match python e [codes "prog.py"] with Some (s, _) => s | None => settle e no_opts end).
  exists (Script (codes "prog.py")), (codes "x").
  exists (match python e [codes "prog.py"] with
          | Some (s, _) => match python e (spawn_args s (codes "x")) with Some (s', _) => s' | None => s end
          | None => settle e no_opts end).
  split; [vm_compute; reflexivity|]. split; [vm_compute; intros []|]. split; [vm_compute; intros []|].
  split; vm_compute; reflexivity.
Qed.

(** PYTHONHASHSEED=5 *)
Definition seed_env : pyenv := {| e_flag := fun _ => 0; e_warn := []; e_dev := false; e_seed := Some 5 |}.

Lemma seed_case : exists s s', python seed_env [codes "prog.py"] = Some (s, Script (codes "prog.py")) /\ hash_seed s = Some 5 /\
  warnoptions s = [] /\ xoptions s = [] /\ spawn_args s (codes "x") = [codes "-R"; codes "-c"; codes "x"] /\
  python seed_env (spawn_args s (codes "x")) = Some (s', Command (codes "x")) /\ hash_seed s' = None.
Proof.
  exists (match python seed_env [codes "prog.py"] with Some (s, _) => s | None => settle seed_env no_opts end).
  exists (match python seed_env [codes "prog.py"] with
          | Some (s, _) => match python seed_env (spawn_args s (codes "x")) with Some (s', _) => s' | None => s end
          | None => settle seed_env no_opts end).
  repeat match goal with |- _ /\ _ => split end; vm_compute; reflexivity.
Qed.
