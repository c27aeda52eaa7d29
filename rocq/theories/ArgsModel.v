(** How arguments travel from .remote() to the function, method or constructor: the parameters of every function on the way.
    Models core/base/{remote_function,actor,common}.py, core/backends/<backend>/{remote_function,actor}.py and the functions of the
    backends' cores that take the user's keyword arguments. Values inside lists and dicts are the subject of BaseModel. *)
From Verif Require Import Lib BaseModel.
From Coq Require Import String List.
Import ListNotations.
Local Open Scope string_scope.

(** An argument: None, an object, a unidist reference (core/base/object_ref.py:6-19), a reference of the backend (its _ref). *)
Inductive aval := ANone | AObj (n : nat) | ARef (n : nat) | AId (n : nat).

(** Keyword arguments, as in a call with two stars (core/base/remote_function.py:33-36). *)
Definition akw := list (string * aval).

(** Membership of names; not code (Python's own, core/base/remote_function.py:36). *)
Definition sin (k : string) (l : list string) : bool := existsb (String.eqb k) l.

(** A parameter list: positional parameters, whether there is a starred one, keyword-only parameters (all with a default), whether there is
    a doubly starred one. mpi/remote_function.py:36 and the other definitions below. *)
Record sig := { s_pos : list string; s_star : bool; s_kwonly : list string; s_kwstar : bool }.

(** What the body of the called function finds: the starred tuple, the keyword-only parameters that were given, the remaining
    keywords (mpi/remote_function.py:36). *)
Record bound := { b_star : list aval; b_opt : string -> option aval; b_kw : akw }.

(** Looking up a keyword; not code. core/base/remote_function.py:36. *)
Fixpoint kfind (kw : akw) (k : string) : option aval :=
  match kw with [] => None | (k', v) :: r => if String.eqb k k' then Some v else kfind r k end.

(** Whether a name is given twice, which the call itself refuses (core/base/remote_function.py:92-98). *)
Fixpoint twice (l : list string) : bool :=
  match l with [] => false | k :: r => sin k r || twice r end.

(** Python's binding of arguments to parameters; None: TypeError (mpi/remote_function.py:36 and the others). *)
Definition bind (sg : sig) (args : list aval) (kw : akw) : option bound :=
  let names := map fst kw in
  let np := List.length (s_pos sg) in
  if twice names then None
  else if negb (s_star sg) && negb (Nat.leb (List.length args) np) then None
  else if existsb (fun k => sin k (firstn (List.length args) (s_pos sg))) names then None
  else if negb (forallb (fun k => sin k names) (skipn (List.length args) (s_pos sg))) then None
  else if negb (s_kwstar sg) && existsb (fun k => negb (sin k (s_pos sg ++ s_kwonly sg))) names then None
  else Some {| b_star := skipn np args;
               b_opt := fun k => if sin k (s_kwonly sg) then kfind kw k else None;
               b_kw := filter (fun p => negb (sin (fst p) (s_pos sg ++ s_kwonly sg))) kw |}.

(** A positional argument that the library passes itself: self, a function, a list of references ... (core/base/remote_function.py:36). *)
Definition own : aval := AObj 0.

(** filter_arguments (core/base/common.py:43-49). Its own parameters are only the starred ones (20). *)
Definition filt (v : aval) : aval := match v with ARef n => AId n | v => v end.

(** filter_arguments on the keywords (core/base/common.py:48). *)
Definition filt_kw (kw : akw) : akw := map (fun p => (fst p, filt (snd p))) kw.

(** An option that was not given, or given as None (mpi/remote_function.py:62-70). *)
Definition unset (o : option aval) : bool := match o with None | Some ANone => true | _ => false end.

(** What comes of a call: the user's function, method or class is called with these arguments; TypeError (raised by .remote(), or by get for
    what is called on a worker); NotImplementedError; nothing is called. mpi/remote_function.py:62-90, mpi/core/controller/actor.py:91-128. *)
Inductive outcome :=
| Reaches (args : list aval) (kw : akw)
| TypeErr
| NotImpl
| NotCalled.

(** A call, and the body that continues with what was bound (mpi/remote_function.py:36). *)
Definition bindk (sg : sig) (args : list aval) (kw : akw) (k : bound -> outcome) : outcome :=
  match bind sg args kw with None => TypeErr | Some b => k b end.

(** def remote(self, *args, **kwargs): core/base/remote_function.py:89, core/base/actor.py:47, 56, 208, 220. *)
Definition sg_remote : sig := {| s_pos := ["self"]; s_star := true; s_kwonly := []; s_kwstar := true |}.

(** _remote of a remote function: mpi/remote_function.py:36, pymp/remote_function.py:34, pyseq/remote_function.py:34, ray/remote_function.py:35,
    dask/remote_function.py:36. *)
Definition sg_f_remote : sig :=
  {| s_pos := ["self"]; s_star := true; s_kwonly := ["num_cpus"; "num_returns"; "resources"]; s_kwstar := true |}.

(** _remote of an actor's method: mpi/actor.py:29, pymp/actor.py:29, pyseq/actor.py:29, ray/actor.py:30, dask/actor.py:31. *)
Definition sg_m_remote : sig := {| s_pos := ["self"]; s_star := true; s_kwonly := ["num_returns"]; s_kwstar := true |}.

(** _remote of an actor's class: mpi/actor.py:160, pymp/actor.py:104, pyseq/actor.py:104, ray/actor.py:161, dask/actor.py:188. *)
Definition sg_c_remote : sig :=
  {| s_pos := ["self"]; s_star := true; s_kwonly := ["num_cpus"; "resources"]; s_kwstar := true |}.

(** submit(task, *args, num_returns=1, **kwargs): mpi/core/controller/api.py:508. *)
Definition sg_mpi_submit : sig := {| s_pos := ["task"]; s_star := true; s_kwonly := ["num_returns"]; s_kwstar := true |}.

(** submit(func, *args, num_returns=1, **kwargs): pymp/core/api.py:112, pyseq/core/api.py:77. *)
Definition sg_func_submit : sig := {| s_pos := ["func"]; s_star := true; s_kwonly := ["num_returns"]; s_kwstar := true |}.

(** Task.__init__: pymp/core/process_manager.py:202. *)
Definition sg_task : sig :=
  {| s_pos := ["self"; "func"; "data_ids"; "obj_store"]; s_star := true; s_kwonly := []; s_kwstar := true |}.

(** ActorMethod.__call__ and ActorMethod.submit: mpi/core/controller/actor.py:36, pymp/core/actor.py:40. *)
Definition sg_method : sig := {| s_pos := ["self"]; s_star := true; s_kwonly := ["num_returns"]; s_kwstar := true |}.

(** Actor.__init__: mpi/core/controller/actor.py:91. *)
Definition sg_mpi_actor : sig :=
  {| s_pos := ["self"; "cls"]; s_star := true; s_kwonly := ["owner_rank"; "handler_id"]; s_kwstar := true |}.

(** Actor.__init__: pymp/core/actor.py:99. *)
Definition sg_pymp_actor : sig := {| s_pos := ["self"; "cls"]; s_star := true; s_kwonly := []; s_kwstar := true |}.

(** The lambda that calls a method on a Dask worker: dask/actor.py:71-73. *)
Definition sg_dask_lambda : sig := {| s_pos := ["actor_cls"; "method"]; s_star := true; s_kwonly := []; s_kwstar := true |}.

Section Backends.

(** The keyword-only parameters of Dask's Client.submit, which is not part of unidist; pure and actor are among them
    (dask/remote_function.py:82-84, dask/actor.py:70-80, 218-220). *)
Variable dask_options : list string.

(** Client.submit(self, func, *args, <options>, **kwargs) (called in dask/remote_function.py:82-84). *)
Definition sg_dask_submit : sig := {| s_pos := ["self"; "func"]; s_star := true; s_kwonly := dask_options; s_kwstar := true |}.

(** What the reference stands for (mpi/core/worker/task_store.py:406-459, pyseq/core/api.py:104-111, pymp/core/process_manager.py:221-229;
    Dask and Ray do it themselves). *)
Variable content : nat -> aval.

(** Materialisation of the arguments of a task (pyseq/core/api.py:104-111 and the others). *)
Definition mat (v : aval) : aval := match v with AId n => content n | v => v end.

(** The same on keywords (pyseq/core/api.py:107-110). *)
Definition mat_kw (kw : akw) : akw := map (fun p => (fst p, mat (snd p))) kw.

(** From the wrapper of a remote function to the function: mpi/remote_function.py:75-83 and mpi/core/controller/api.py:508-581;
    pymp/remote_function.py:72-74, pymp/core/api.py:112-149; pyseq/remote_function.py:72-74, pyseq/core/api.py:77-123;
    dask/remote_function.py:79-84; ray/remote_function.py:68-73 (Ray's own remote takes everything). *)
Definition f_backend (be : backend) (args : list aval) (kw : akw) : outcome :=
  match be with
  | Mpi => bindk sg_mpi_submit (own :: args) (("num_returns", own) :: kw) (fun b => Reaches (map mat (b_star b)) (mat_kw (b_kw b)))
  | PyMp => bindk sg_func_submit (own :: args) (("num_returns", own) :: kw) (fun b =>
              bindk sg_task (own :: own :: own :: own :: b_star b) (b_kw b) (fun b => Reaches (map mat (b_star b)) (mat_kw (b_kw b))))
  | PySeq => bindk sg_func_submit (own :: args) (("num_returns", own) :: kw) (fun b => Reaches (map mat (b_star b)) (mat_kw (b_kw b)))
  | Dask => bindk sg_dask_submit (own :: own :: args) (("pure", own) :: kw) (fun b => Reaches (map mat (b_star b)) (mat_kw (b_kw b)))
  | Ray => Reaches (map mat args) (mat_kw kw)
  end.

(** _remote of a remote function decorated without options: num_cpus and resources are refused (mpi/remote_function.py:62-67 and the others)
    except on Ray (ray/remote_function.py:61-73); num_returns is taken as the number of outputs (69-70). *)
Definition f_wrapper (be : backend) (args : list aval) (kw : akw) : outcome :=
  bindk sg_f_remote (own :: args) kw (fun b =>
    match be with
    | Ray => f_backend be (b_star b) (b_kw b)
    | _ => if unset (b_opt b "num_cpus") && unset (b_opt b "resources") then f_backend be (b_star b) (b_kw b) else NotImpl
    end).

(** f.remote( *args, **kw): core/base/remote_function.py:31-38; _remote_proxy is a plain function without other parameters. *)
Definition f_remote_call (be : backend) (args : list aval) (kw : akw) : outcome :=
  f_wrapper be (map filt args) (filt_kw kw).

(** f.options(num_cpus=None, num_returns=n, resources=None).remote( *args, **kw): core/base/remote_function.py:86-100. *)
Definition f_options_call (be : backend) (n : aval) (args : list aval) (kw : akw) : outcome :=
  bindk sg_remote (own :: args) kw (fun b =>
    f_wrapper be (map filt (b_star b)) ([("num_cpus", ANone); ("num_returns", n); ("resources", ANone)] ++ filt_kw (b_kw b))%list).

(** From the wrapper of a method to the method: mpi/actor.py:53-54, mpi/core/controller/actor.py:36-64; pymp/actor.py:55-56,
    pymp/core/actor.py:40-74; pyseq/actor.py:55-56; dask/actor.py:58-80; ray/actor.py:56-57. *)
Definition m_backend (be : backend) (args : list aval) (kw : akw) : outcome :=
  match be with
  | Mpi => bindk sg_method (own :: args) (("num_returns", own) :: kw) (fun b => Reaches (map mat (b_star b)) (mat_kw (b_kw b)))
  | PyMp => bindk sg_method (own :: args) (("num_returns", own) :: kw) (fun b =>
              bindk sg_task (own :: own :: own :: own :: b_star b) (b_kw b) (fun b => Reaches (map mat (b_star b)) (mat_kw (b_kw b))))
  | PySeq => bindk sg_func_submit (own :: args) (("num_returns", own) :: kw) (fun b => Reaches (map mat (b_star b)) (mat_kw (b_kw b)))
  | Dask => bindk sg_dask_submit (own :: own :: own :: own :: args) (kw ++ [("pure", own)])%list (fun b =>
              bindk sg_dask_lambda (b_star b) (b_kw b) (fun b => Reaches (map mat (b_star b)) (mat_kw (b_kw b))))
  | Ray => Reaches (map mat args) (mat_kw kw)
  end.

(** h.m.remote( *args, **kw): core/base/actor.py:56-73. *)
Definition m_remote_call (be : backend) (args : list aval) (kw : akw) : outcome :=
  bindk sg_remote (own :: args) kw (fun b =>
    bindk sg_m_remote (own :: map filt (b_star b)) (filt_kw (b_kw b)) (fun b => m_backend be (b_star b) (b_kw b))).

(** h.m.options(num_returns=n).remote( *args, **kw): core/base/actor.py:26-54. *)
Definition m_options_call (be : backend) (n : aval) (args : list aval) (kw : akw) : outcome :=
  bindk sg_remote (own :: args) kw (fun b =>
    bindk sg_m_remote (own :: map filt (b_star b)) (("num_returns", n) :: filt_kw (b_kw b)) (fun b => m_backend be (b_star b) (b_kw b))).

(** From the wrapper of an actor's class to its constructor: mpi/actor.py:186 and mpi/core/controller/actor.py:91-128 (nothing is created if
    owner_rank or handler_id is given); pymp/actor.py:132, pymp/core/actor.py:99-110; pyseq/actor.py:132; dask/actor.py:218-220;
    ray/actor.py:184-188. The arguments are not materialised: mpi/core/worker/loop.py:140-153; Dask and Ray look for their own references only,
    and here there are unidist's. *)
Definition c_backend (be : backend) (args : list aval) (kw : akw) : outcome :=
  match be with
  | Mpi => bindk sg_mpi_actor (own :: own :: args) kw (fun b =>
             if unset (b_opt b "owner_rank") && unset (b_opt b "handler_id") then Reaches (b_star b) (b_kw b) else NotCalled)
  | PyMp => bindk sg_pymp_actor (own :: own :: args) kw (fun b => Reaches (b_star b) (b_kw b))
  | PySeq => Reaches args kw
  | Dask => bindk sg_dask_submit (own :: own :: args) (kw ++ [("actor", own)])%list (fun b => Reaches (b_star b) (b_kw b))
  | Ray => Reaches args kw
  end.

(** _remote of an actor's class decorated without options (mpi/actor.py:160-187 and the others; ray/actor.py:161-189). *)
Definition c_wrapper (be : backend) (args : list aval) (kw : akw) : outcome :=
  bindk sg_c_remote (own :: args) kw (fun b =>
    match be with
    | Ray => c_backend be (b_star b) (b_kw b)
    | _ => if unset (b_opt b "num_cpus") && unset (b_opt b "resources") then c_backend be (b_star b) (b_kw b) else NotImpl
    end).

(** C.remote( *args, **kw): core/base/actor.py:220-238. *)
Definition c_remote_call (be : backend) (args : list aval) (kw : akw) : outcome :=
  bindk sg_remote (own :: args) kw (fun b => c_wrapper be (b_star b) (b_kw b)).

(** C.options().remote( *args, **kw): core/base/actor.py:184-218. *)
Definition c_options_call (be : backend) (args : list aval) (kw : akw) : outcome :=
  bindk sg_remote (own :: args) kw (fun b =>
    c_wrapper be (b_star b) (b_kw b ++ [("num_cpus", ANone); ("resources", ANone)])%list).

(** The ways to call something remotely (core/base/remote_function.py:31-100, core/base/actor.py:26-73, 184-238). *)
Inductive entry := Function | FunctionOptions (n : aval) | Method | MethodOptions (n : aval) | Constructor | ConstructorOptions.

(** Any remote call (core/base/remote_function.py:31-100, core/base/actor.py:26-73, 184-238). *)
Definition remote_call (be : backend) (e : entry) (args : list aval) (kw : akw) : outcome :=
  match e with
  | Function => f_remote_call be args kw
  | FunctionOptions n => f_options_call be n args kw
  | Method => m_remote_call be args kw
  | MethodOptions n => m_options_call be n args kw
  | Constructor => c_remote_call be args kw
  | ConstructorOptions => c_options_call be args kw
  end.

End Backends.

(** Attribute lookup on an actor's handle. Attributes of the object that the user holds, of the backend's wrapper and of the backend's own
    handle hide the methods of the user's class. core/base/actor.py:89-158 (the wrappers inherit from it), mpi/actor.py:82-186 and the others,
    mpi/core/controller/actor.py:91-200, pymp/core/actor.py:99-148; pyseq has the user's object itself (pyseq/actor.py:132). Attributes that every
    Python object has and those of Dask's and Ray's handles are left out. *)
Definition holder_attrs : list string := ["_actor_cls"; "_serialization_helper"; "_deserialization_helper"].

(** mpi/actor.py:82-186, pymp/actor.py:80-133, pyseq/actor.py:80-133, dask/actor.py:110-221, ray/actor.py:83-189. *)
Definition wrapper_attrs : list string :=
  ["_cls"; "_num_cpus"; "_resources"; "_actor_handle"; "_remote"; "_serialization_helper"; "_deserialization_helper"].

(** mpi/core/controller/actor.py:91-200, pymp/core/actor.py:99-148. *)
Definition handle_attrs (be : backend) : list string :=
  match be with
  | Mpi => ["_cls"; "_args"; "_kwargs"; "_owner_rank"; "_handler_id"; "_serialization_helper"; "_deserialization_helper"]
  | PyMp => ["_worker"; "_worker_id"; "_obj_store"; "_cls_obj"; "submit"]
  | _ => []
  end.

(** Whether h.name.remote() calls the method [name] of the user's object: __getattr__ is used only for names that are not found otherwise
    (core/base/actor.py:140-158, mpi/actor.py:142-158, mpi/core/controller/actor.py:189-194; pymp/actor.py:55-56, pymp/core/actor.py:112-128).
    On PyMp the object is behind a proxy of multiprocessing's BaseManager, which has the methods whose name does not start with an underscore
    (pymp/core/actor.py:104-109; the library's contract). *)
Definition finds_method (be : backend) (name : string) : bool :=
  if sin name holder_attrs then false
  else if sin name wrapper_attrs then false
  else negb (sin name (handle_attrs be)) && match be with PyMp => negb (prefix "_" name) | _ => true end.
