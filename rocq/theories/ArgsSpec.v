(** Vocabulary for C74 and C75: the keywords that do not reach the user's code, and what the user's code gets. *)
From Verif Require Import Lib BaseModel ArgsModel.
From Coq Require Import String List.
Import ListNotations.
Local Open Scope string_scope.

(** The keywords that .remote() does not pass on, for a function, a method and a constructor, on each backend; [D] are the options of Dask's
    own submit. *)
Definition reserved (D : list string) (be : backend) (e : entry) : list string :=
  match e with
  | Function | FunctionOptions _ =>
      (["self"; "num_cpus"; "num_returns"; "resources"] ++
       match be with
       | Mpi => ["task"]
       | PyMp => ["func"; "data_ids"; "obj_store"]
       | PySeq => ["func"]
       | Dask => "func" :: D
       | Ray => []
       end)%list
  | Method | MethodOptions _ =>
      (["self"; "num_returns"] ++
       match be with
       | Mpi => []
       | PyMp => ["func"; "data_ids"; "obj_store"]
       | PySeq => ["func"]
       | Dask => "func" :: "actor_cls" :: "method" :: D
       | Ray => []
       end)%list
  | Constructor | ConstructorOptions =>
      (["self"; "num_cpus"; "resources"] ++
       match be with
       | Mpi => ["cls"; "owner_rank"; "handler_id"]
       | PyMp => ["cls"]
       | PySeq => []
       | Dask => "func" :: D
       | Ray => []
       end)%list
  end.

(** What the user's code gets for an argument: functions and methods get the object that a reference stands for, constructors get the
    argument itself. *)
Definition gets (content : nat -> aval) (e : entry) (v : aval) : aval :=
  match e, v with
  | (Constructor | ConstructorOptions), _ => v
  | _, (ARef n | AId n) => content n
  | _, _ => v
  end.

(** The same for keyword arguments: the names stay. *)
Definition gets_kw (content : nat -> aval) (e : entry) (kw : akw) : akw := map (fun p => (fst p, gets content e (snd p))) kw.

(** The keywords of a call are different names, as in any dict. *)
Definition keywords (kw : akw) : Prop := NoDup (map fst kw).

(** The keyword arguments that are not reserved, in their order. *)
Definition unreserved (D : list string) (be : backend) (e : entry) (kw : akw) : akw :=
  filter (fun p => negb (existsb (String.eqb (fst p)) (reserved D be e))) kw.
