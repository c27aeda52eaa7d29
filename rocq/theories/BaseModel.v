(** Model of the layer between the public API and the backends: how arguments are unwrapped, what the remote decorator
    accepts, what a call hands on to the MPI backend, and which backend an API call goes to. *)
From Verif Require Import Lib.
From Coq Require Import ZArith.

(** A Python value. [PRef r] is a unidist ObjectRef whose _ref is the backend's reference r, [PId r] that backend reference
    itself. [PSub] is an instance of a subclass of list, tuple or dict (namedtuple, OrderedDict, ...). Values are finite
    trees; the keys of dicts are numbered. The types told apart in base/common.py:47-48 and backends/common/utils.py:22-36.
    *)
Inductive pobj :=
| PNone
| PInt (z : Z)
| PBool (b : bool)
| PLeaf (n : nat)
| PRef (r : nat)
| PId (r : nat)
| PList (l : list pobj)
| PTuple (l : list pobj)
| PDict (l : list (nat * pobj))
| PSub (cls : nat) (l : list pobj).

(** container.update({value: unwrapped_value}) (core/backends/common/utils.py:33). *)
Fixpoint dict_set (l : list (nat * pobj)) (k : nat) (v : pobj) : list (nat * pobj) :=
  match l with
  | [] => [(k, v)]
  | (k', v') :: r => if Nat.eqb k k' then (k, v) :: r else (k', v') :: dict_set r k v
  end.

(** unwrap_object_refs (core/backends/common/utils.py:10-36). The loop over a dict looks every key up; here it goes over
    the items. type(obj) in (list, tuple, dict) is false for instances of subclasses. *)
Fixpoint unwrap (o : pobj) : pobj :=
  let fix items l acc := match l with [] => acc | x :: r => items r (acc ++ [unwrap x]) end in
  let fix entries l acc := match l with [] => acc | (k, x) :: r => entries r (dict_set acc k (unwrap x)) end in
  match o with
  | PList l => PList (items l [])
  | PTuple l => PTuple (items l [])
  | PDict l => PDict (entries l [])
  | PRef r => PId r
  | _ => o
  end.

(** arg._ref if isinstance(arg, ObjectRef) else arg (core/base/common.py:47-48). *)
Definition filter_argument (o : pobj) : pobj := match o with PRef r => PId r | _ => o end.

(** The names of keyword arguments that matter below; all others are [Other]. unidist/api.py:136-138,
    base/remote_function.py:64, mpi/remote_function.py:36. *)
Inductive kwname := NumCpus | NumReturns | Resources | Self | Task | Other (n : nat).

(** Equality of keyword names (unidist/api.py:136-138). *)
Definition kwname_eqb (a b : kwname) : bool :=
  match a, b with
  | NumCpus, NumCpus | NumReturns, NumReturns | Resources, Resources | Self, Self | Task, Task => true
  | Other n, Other m => Nat.eqb n m
  | _, _ => false
  end.

(** A dictionary of keyword arguments (unidist/api.py:114). *)
Definition kwargs := list (kwname * pobj).

(** kwargs.get(k): unidist/api.py:136-138. *)
Fixpoint kwget (kw : kwargs) (k : kwname) : pobj :=        (* kwargs.get(k) *)
  match kw with [] => PNone | (k', v) :: r => if kwname_eqb k k' then v else kwget r k end.

(** k in kwargs: binding of keywords in calls (mpi/remote_function.py:36, 78-83). *)
Fixpoint kwhas (kw : kwargs) (k : kwname) : bool :=
  match kw with [] => false | (k', _) :: r => kwname_eqb k k' || kwhas r k end.

(** filter_arguments (core/base/common.py:20-49). *)
Definition filter_arguments (args : list pobj) (kw : kwargs) : list pobj * kwargs :=
  (map filter_argument args, map (fun '(k, v) => (k, filter_argument v)) kw).

(** x is None (unidist/api.py:51, 65, mpi/remote_function.py:33, 62-70). *)
Definition is_none (o : pobj) : bool := match o with PNone => true | _ => false end.

(** isinstance(v, int): bool is a subclass of int. unidist/api.py:51-53. *)
Definition as_int (o : pobj) : option Z :=
  match o with PInt z => Some z | PBool b => Some (if b then 1%Z else 0%Z) | _ => None end.

(** What is decorated. inspect.isfunction, inspect.isclass (unidist/api.py:50, 64) and callable (130). *)
Inductive thing := AFunction (n : nat) | AClass (n : nat) | ACallable (n : nat) | AValue (n : nat).

(** callable(args[0]): unidist/api.py:130. *)
Definition callable (t : thing) : bool := match t with AValue _ => false | _ => true end.

(** What decorator (unidist/api.py:36-76) returns or raises. *)
Inductive decorated :=
| RemoteFunction (f : nat) (num_cpus num_returns resources : pobj)
| RemoteActor (c : nat) (num_cpus resources : pobj)
| RaisesValueError
| RaisesTypeError.

(** make_decorator (api.py:16-76), without the backend it fixes (see [api_call] below). *)
Definition make_decorator (num_cpus num_returns resources : pobj) (t : thing) : decorated :=
  match t with
  | AFunction f =>
      if negb (is_none num_returns)
         && (match as_int num_returns with None => true | Some z => Z.ltb z 0 end)
      then RaisesValueError
      else RemoteFunction f num_cpus num_returns resources
  | AClass c => if negb (is_none num_returns) then RaisesTypeError else RemoteActor c num_cpus resources
  | _ => RaisesTypeError
  end.

(** What remote (unidist/api.py:114-141) returns or raises. *)
Inductive remoted := Decorated (d : decorated) | Decorator (f : thing -> decorated) | RaisesAssertion.

(** remote (api.py:114-141). *)
Definition remote (args : list thing) (kw : kwargs) : remoted :=
  match args, kw with
  | [t], [] => if callable t then Decorated (make_decorator PNone PNone PNone t) else RaisesAssertion
  | [], _ :: _ => Decorator (make_decorator (kwget kw NumCpus) (kwget kw NumReturns) (kwget kw Resources))
  | _, _ => RaisesAssertion
  end.

(** What comes back from a call. mpi/remote_function.py:85-90. *)
Inductive returned := OneRef | Refs (n : nat) | NoRefs.

(** What _remote (mpi/remote_function.py:36-90) submits, or the exception (41-45 of base/remote_function.py, 62-67). *)
Inductive call :=
| Submits (args : list pobj) (kw : kwargs) (num_returns : Z) (r : returned)
| CallTypeError
| CallNotImplemented.

(** A keyword that is not bound by a parameter of _remote (mpi/remote_function.py:36). *)
Definition unreserved (p : kwname * pobj) : bool :=
  match fst p with NumCpus | NumReturns | Resources => false | _ => true end.

(** MPIRemoteFunction._remote (core/backends/mpi/remote_function.py:38-90) of a function decorated with the three
    options, called with [args] and [kw]: the keywords num_cpus, num_returns and resources are bound to parameters of
    _remote, self and task (parameter of mpi.submit, core/backends/mpi/core/controller/api.py:508) clash. A num_returns that is
    not an int fails when the references are made (1.0 and the like are not modelled). *)
Definition mpi_remote (cpus nret res : pobj) (args : list pobj) (kw : kwargs) : call :=
  if kwhas kw Self then CallTypeError
  else if negb (is_none (kwget kw NumCpus)) || negb (is_none cpus) then CallNotImplemented
  else if negb (is_none (kwget kw Resources)) || negb (is_none res) then CallNotImplemented
  else
    let nret := if is_none nret then PInt 1 else nret in
    let nret := if is_none (kwget kw NumReturns) then nret else kwget kw NumReturns in
    let rest := filter unreserved kw in
    if kwhas rest Task then CallTypeError
    else
      match as_int nret with
      | None => CallTypeError
      | Some n =>
          Submits (map unwrap args) (map (fun '(k, v) => (k, unwrap v)) rest) n
            (if Z.eqb n 1 then OneRef else if Z.ltb 1 n then Refs (Z.to_nat n) else NoRefs)
      end.

(** f.remote(args, kw) (core/base/remote_function.py:31-37). *)
Definition f_remote (cpus nret res : pobj) (args : list pobj) (kw : kwargs) : call :=
  let (args, kw) := filter_arguments args kw in mpi_remote cpus nret res args kw.

(** f.options(num_cpus=c, num_returns=n, resources=r).remote(args, kw) (core/base/remote_function.py:63-98). *)
Definition f_options_remote (cpus nret res : pobj) (c n r : pobj) (args : list pobj) (kw : kwargs) : call :=
  if kwhas kw Self then CallTypeError
  else if kwhas kw NumCpus || kwhas kw NumReturns || kwhas kw Resources then CallTypeError
  else
    let (args, kw) := filter_arguments args kw in
    mpi_remote cpus nret res args ([(NumCpus, c); (NumReturns, n); (Resources, r)] ++ kw).

(** The choices of the Backend parameter (config/backends/common/envvars.py:17-23). *)
Inductive backend := Ray | Dask | Mpi | PyMp | PySeq.

(** BackendProxy's instance and the runtimes that were initialised, in order. base/backend.py:202-220 and the initialize_*
    calls of base/utils.py:28-57. *)
Record proc := mkProc { instance : option backend; started : list backend }.

(** BackendProxy.__instance = None (base/backend.py:202). *)
Definition proc_init : proc := mkProc None [].

(** BackendProxy.get_instance (core/base/backend.py:208-220). *)
Definition get_instance (p : proc) (b : backend) : proc :=
  match instance p with None => mkProc (Some b) (started p) | Some _ => p end.

(** What an operation on the API does: through get_backend_proxy (base/utils.py:65-105), or the exception of init_backend
    for Dask outside the main thread (33-38, 62). *)
Inductive answer := Done | CalledOn (b : backend) | UnboundLocal.

(** init (api.py:82-92) = init_backend (core/base/utils.py:12-62); [cfg] is the configured backend, [main] whether the
    calling thread is the main one. Backend.get raises for other names (ConfigModel). *)
Definition init_backend (p : proc) (cfg : backend) (main : bool) : proc * answer :=
  match cfg with
  | Dask => if main then (get_instance (mkProc (instance p) (started p ++ [Dask])) Dask, Done) else (p, UnboundLocal)
  | b => (get_instance (mkProc (instance p) (started p ++ [b])) b, Done)
  end.

(** get_backend_proxy (core/base/utils.py:65-105) and the operation done on what it returns: is_initialized, shutdown,
    get, wait, is_object_ref, get_ip, num_cpus, cluster_resources and decorating (api.py). *)
Definition api_call (p : proc) (cfg : backend) : proc * answer :=
  match instance p with
  | Some b => (p, CalledOn b)
  | None => (get_instance p cfg, CalledOn cfg)
  end.

(** Comparison of names (base/common.py:10-17, base/utils.py:24-60). *)
Definition backend_eqb (a b : backend) : bool :=
  match a, b with
  | Ray, Ray | Dask, Dask | Mpi, Mpi | PyMp, PyMp | PySeq, PySeq => true
  | _, _ => false
  end.

(** put (api.py:162-180): is_initialized, init if it answers no, then put. A backend answers yes if its runtime was
    started (shutting it down is not modelled). *)
Definition api_put (p : proc) (cfg : backend) (main : bool) : proc * answer :=
  match api_call p cfg with
  | (p, CalledOn b) =>
      if existsb (backend_eqb b) (started p) then api_call p cfg
      else match init_backend p cfg main with
           | (p, UnboundLocal) => (p, UnboundLocal)
           | (p, _) => api_call p cfg
           end
  | r => r
  end.

(** What a program does: every operation with the configuration it finds. unidist/api.py:82-141. *)
Inductive pop := Init (cfg : backend) (main : bool) | Call (cfg : backend) | Put (cfg : backend) (main : bool).

(** unidist/api.py:82-141 through base/utils.py:12-105. *)
Definition pstep (p : proc) (o : pop) : proc * answer :=
  match o with
  | Init cfg main => init_backend p cfg main
  | Call cfg => api_call p cfg
  | Put cfg main => api_put p cfg main
  end.

(** Any program of one process, as the calls it makes (unidist/api.py:82-141). *)
Fixpoint prun (p : proc) (os : list pop) : proc * list answer :=
  match os with
  | [] => (p, [])
  | o :: r => let (p, a) := pstep p o in let (p, l) := prun p r in (p, a :: l)
  end.
