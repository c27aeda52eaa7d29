(** C76: spawned processes run with the configuration of the program that spawned them (MPI). *)
From Coq Require Import ZArith String.
From Verif Require Import Lib ConfigModel SpawnModel SpawnSpec SpawnProofs SpawnCases.
From Coq Require Import List.
Import ListNotations.
Local Open Scope list_scope.

(** For every history of get, put and get_value_source before init, every environment of the root and of the spawned process, and every runtime
    environment: the program text that init hands to the spawned processes is one that Python reads and runs up to unidist.init(); there, the
    environment is that of the process with the variables of MpiRuntimeEnv assigned, and get returns the value that get returns at the root,
    for every parameter that was set at the root (or has its default on both sides). What is missing from the property: MpiPickleThreshold (below), defaults
    that differ, and texts with quotes or backslashes. *)
Theorem C76_same_partial :
  forall (float_of : text -> option nat) (show_float : nat -> text) (read_float : text -> option nat)
         (repr_env : list (text * text) -> text) (unrepr_env : text -> option (list (text * text) * text))
         (root_cpus child_cpus : Z) (e ec : environ) (us : list use) (rt : option (list (text * text))) (root : conf) (prog : text),
    repr_contract repr_env unrepr_env ->
    program float_of show_float repr_env root_cpus e (uses float_of root_cpus e us) rt = Some (root, prog) ->
    (forall h, value (root Hosts) = Some (CStr h) -> plain h) ->
    (forall f, value (root Backoff) = Some (CFloat f) -> literal_float show_float read_float f) ->
    (forall l n v, rt = Some l -> In (n, v) l -> plain n /\ plain v) ->
    exists child, spawned float_of read_float unrepr_env child_cpus ec prog = Some (child, assigned rt ec) /\
      forall p, p <> PickleThr -> settled root_cpus child_cpus root (assigned rt ec) p ->
        exists v, snd (cfg_get float_of child_cpus child (assigned rt ec) p) = Some v /\
                  snd (cfg_get float_of root_cpus root e p) = Some v.
Proof. exact same_values. Qed.
Print Assumptions C76_same_partial.

(** The same for MpiPickleThreshold, whose get depends on the shared object store: if the program did not read it while the shared object
    store was on, or the store is still on. *)
Theorem C76_pickle_partial :
  forall (float_of : text -> option nat) (show_float : nat -> text) (read_float : text -> option nat)
         (repr_env : list (text * text) -> text) (unrepr_env : text -> option (list (text * text) * text))
         (root_cpus child_cpus : Z) (e ec : environ) (us : list use) (rt : option (list (text * text))) (root : conf) (prog : text),
    repr_contract repr_env unrepr_env ->
    program float_of show_float repr_env root_cpus e (uses float_of root_cpus e us) rt = Some (root, prog) ->
    (forall h, value (root Hosts) = Some (CStr h) -> plain h) ->
    (forall f, value (root Backoff) = Some (CFloat f) -> literal_float show_float read_float f) ->
    (forall l n v, rt = Some l -> In (n, v) l -> plain n /\ plain v) ->
    settled root_cpus child_cpus root (assigned rt ec) Shared ->
    (shared_on float_of root_cpus e root -> settled root_cpus child_cpus root (assigned rt ec) SharedThr) ->
    (~ shared_on float_of root_cpus e root ->
       settled root_cpus child_cpus root (assigned rt ec) PickleThr /\ not_read_shared float_of root_cpus e us) ->
    exists child, spawned float_of read_float unrepr_env child_cpus ec prog = Some (child, assigned rt ec) /\
      exists v, snd (cfg_get float_of child_cpus child (assigned rt ec) PickleThr) = Some v /\
                snd (cfg_get float_of root_cpus root e PickleThr) = Some v.
Proof. exact same_pickle. Qed.
Print Assumptions C76_pickle_partial.

Example C76_case :
  let root := root_of (prog_of env_root us1 rt1) in
  let ec := assigned rt1 no_env in
  repr_contract a_repr a_unrepr /\
  program a_float a_show a_repr 4%Z env_root (uses a_float 4%Z env_root us1) rt1 = Some (root, text_of (prog_of env_root us1 rt1)) /\
  (forall h, value (root Hosts) = Some (CStr h) -> plain h) /\
  (forall f, value (root Backoff) = Some (CFloat f) -> literal_float a_show a_read f) /\
  (forall l n v, rt1 = Some l -> In (n, v) l -> plain n /\ plain v) /\
  settled 4%Z 8%Z root ec Cpus /\ settled 4%Z 8%Z root ec Hosts /\ settled 4%Z 8%Z root ec Shared /\ settled 4%Z 8%Z root ec SharedThr /\
  ~ settled 4%Z 8%Z root ec Log /\ shared_on a_float 4%Z env_root root /\
  child_gets (prog_of env_root us1 rt1) Cpus = Some (CInt 12) /\
  child_gets (prog_of env_root us1 rt1) Hosts = Some (CStr (codes "a,b")) /\
  child_gets (prog_of env_root us1 rt1) Backoff = Some (CFloat 1) /\
  child_gets (prog_of env_root us1 rt1) PickleThr = Some (CInt 100000).
Proof. exact c76_case. Qed.

(** MpiPickleThreshold.put(5); it is read while the shared object store is on; the store is switched off again: the root has 5, the spawned
    processes the default. *)
Theorem C76_pickle_refuted :
  snd (cfg_get a_float 4%Z (root_of (prog_of no_env us_stale None)) no_env PickleThr) = Some (CInt 5) /\
  child_gets (prog_of no_env us_stale None) PickleThr = Some (CInt 262144).
Proof. exact c76_stale. Qed.
Print Assumptions C76_pickle_refuted.

(** A value of MpiRuntimeEnv with a quote: the spawned processes do not start. *)
Theorem C76_quote_refuted :
  prog_of no_env [] (Some [(codes "A", codes "it's")]) <> None /\ child_of (prog_of no_env [] (Some [(codes "A", codes "it's")])) = None.
Proof. exact c76_quote. Qed.
Print Assumptions C76_quote_refuted.

(** Or they run other statements: one value can assign another variable. *)
Theorem C76_injection_refuted :
  child_env (prog_of no_env [] inject) (codes "A") = Some (codes "x") /\ child_env (prog_of no_env [] inject) (codes "B") = Some (codes "y") /\
  assigned inject no_env (codes "B") = None.
Proof. exact c76_inject. Qed.
Print Assumptions C76_injection_refuted.

(** A value with a backslash: C:\temp becomes C:, a tab and emp. *)
Theorem C76_backslash_refuted :
  child_env (prog_of no_env [] (Some [(codes "DIR", codes "C:\temp")])) (codes "DIR") = Some (codes "C:" ++ 9 :: codes "emp").
Proof. exact c76_backslash. Qed.
Print Assumptions C76_backslash_refuted.

(** An infinite MpiBackoff, which put accepts: inf is no literal. *)
Theorem C76_infinite_refuted :
  prog_of no_env [UPut Backoff (CFloat 2)] None <> None /\ child_of (prog_of no_env [UPut Backoff (CFloat 2)] None) = None.
Proof. exact c76_infinite. Qed.
Print Assumptions C76_infinite_refuted.

(** A default of the root is not handed on: CpuCount is 4 at the root and 8 on a host with 8 CPUs. *)
Theorem C76_default_refuted :
  snd (cfg_get a_float 4%Z (root_of (prog_of no_env [] None)) no_env Cpus) = Some (CInt 4) /\
  child_gets (prog_of no_env [] None) Cpus = Some (CInt 8).
Proof. exact c76_default. Qed.
Print Assumptions C76_default_refuted.
