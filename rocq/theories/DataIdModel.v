(** Model of data IDs: core/backends/common/data_id.py:10-45 (DataID),
    core/backends/mpi/core/common.py:266-334 (MpiDataID),
    local_object_store.py:182-200 (generate_data_id), garbage_collector.py:82-92 (collect) and
    shared_object_store.py:265-280 (_parse_data_id). *)
From Verif Require Import Lib ShmModel.
From Coq Require Import String Ascii DecimalString DecimalNat.

(** ** Names *)
Open Scope string_scope.

(** str of a non-negative int. In the f-string of common.py:297. *)
Definition str_nat (n : nat) : string := NilZero.string_of_uint (Nat.to_uint n).

(** Python's int() on a string of digits. int(...) of shared_object_store.py:280. *)
Definition int_of (s : string) : option nat := option_map Nat.of_uint (NilZero.uint_of_string s).

(** common.py:299  f"rank_{owner_rank}_id_{data_number}" *)
Definition id_name (d : dataid) : string :=
  "rank_" ++ str_nat (fst d) ++ "_id_" ++ str_nat (snd d).

(** data_id.py:22-23  __repr__, also what str() gives. *)
Definition id_repr (d : dataid) : string := "DataID(" ++ id_name d ++ ")".

(** str.replace(c, ""). shared_object_store.py:280 (_parse_data_id). *)
Fixpoint drop_char (c : ascii) (s : string) : string :=
  match s with
  | EmptyString => EmptyString
  | String a r => if Ascii.eqb a c then drop_char c r else String a (drop_char c r)
  end.

(** str.split(c). shared_object_store.py:280 (_parse_data_id). *)
Fixpoint split_char (c : ascii) (s : string) : list string :=
  match s with
  | EmptyString => [EmptyString]
  | String a r =>
      if Ascii.eqb a c then EmptyString :: split_char c r
      else match split_char c r with
           | [] => [String a EmptyString]
           | x :: l => String a x :: l
           end
  end.

(** shared_object_store.py:265-280; [None] is IndexError / ValueError. *)
Definition parse_data_id (s : string) : option dataid :=
  let parts := split_char "_" (drop_char ")" s) in
  match nth_error parts 1, nth_error parts 3 with
  | Some a, Some b =>
      match int_of a, int_of b with Some x, Some y => Some (x, y) | _, _ => None end
  | _, _ => None
  end.

Close Scope string_scope.

(** ** Objects *)

(** A live MpiDataID object: its address, its key, and whether its [_gc] attribute is set. common.py:285-300. *)
Record inst := { addr : nat; key : dataid; has_gc : bool }.

(** A process: the data number counter, the live objects ([_instances] is weak, so it holds exactly these), the strong
    references to them (by address), the next address, and the IDs the garbage collector was told about ([_cleanup_list] and
    what was already sent). common.py:285, local_object_store.py:24-38, controller/garbage_collector.py:40-41. *)
Record proc := {
  counter : nat;
  insts : list inst;
  handles : list nat;
  next_addr : nat;
  collected : list dataid
}.

(** A new process (common.py:285, local_object_store.py:24-38, controller/garbage_collector.py:33-45). *)
Definition proc_init : proc :=
  {| counter := 0; insts := []; handles := []; next_addr := 0; collected := [] |}.

(** key in cls._instances (common.py:289-290). *)
Definition find_key (l : list inst) (d : dataid) : option inst :=
  find (fun i => did_eqb (key i) d) l.

(** common.py:289-296  __new__: the registered object, else a fresh one without [_gc]; the
    caller gets a strong reference. *)
Definition id_new (p : proc) (d : dataid) : proc * nat :=
  match find_key (insts p) d with
  | Some i => ({| counter := counter p; insts := insts p; handles := handles p ++ [addr i];
                  next_addr := next_addr p; collected := collected p |}, addr i)
  | None =>
      let a := next_addr p in
      ({| counter := counter p;
          insts := insts p ++ [{| addr := a; key := d; has_gc := false |}];
          handles := handles p ++ [a]; next_addr := S a; collected := collected p |}, a)
  end.

(** common.py:298-302  __init__ runs on every MpiDataID(...) call, also when __new__ returned
    an existing object: it sets [_gc]. *)
Definition id_init (p : proc) (a : nat) (gc : bool) : proc :=
  {| counter := counter p;
     insts := map (fun i => if Nat.eqb (addr i) a
                            then {| addr := a; key := key i; has_gc := gc |} else i) (insts p);
     handles := handles p; next_addr := next_addr p; collected := collected p |}.

(** MpiDataID(owner, number, gc). __new__ and __init__ (common.py:287-300). *)
Definition construct (p : proc) (d : dataid) (gc : bool) : proc :=
  let (p', a) := id_new p d in id_init p' a gc.

(** local_object_store.py:182-200  generate_data_id on the process with rank [r]. *)
Definition generate (r : rank) (p : proc) : proc :=
  let p' := construct p (r, counter p) true in
  {| counter := S (counter p'); insts := insts p'; handles := handles p';
     next_addr := next_addr p'; collected := collected p' |}.

(** Unpickling: __new__ with the arguments of __getnewargs__ (common.py:302-311), then the state without [_gc] (313-327) is
    added to __dict__, so [_gc] of an existing object is kept. *)
Definition unpickle (p : proc) (d : dataid) : proc := fst (id_new p d).

(** One of several variables that hold an object goes away; not code of /repo (it leads to common.py:329-334). *)
Fixpoint remove_at {A} (n : nat) (l : list A) : list A :=
  match l, n with
  | [], _ => []
  | _ :: r, O => r
  | x :: r, S n' => x :: remove_at n' r
  end.

(** One strong reference goes away; with the last one the object dies and __del__ (329-334) tells the garbage collector, if
    there is one. common.py:329-334. *)
Definition drop_handle (p : proc) (k : nat) : proc :=
  match nth_error (handles p) k with
  | None => p
  | Some a =>
      let hs := remove_at k (handles p) in
      if existsb (Nat.eqb a) hs
      then {| counter := counter p; insts := insts p; handles := hs; next_addr := next_addr p;
              collected := collected p |}
      else
        match find (fun i => Nat.eqb (addr i) a) (insts p) with
        | None => p
        | Some i =>
            {| counter := counter p;
               insts := filter (fun j => negb (Nat.eqb (addr j) a)) (insts p);
               handles := hs; next_addr := next_addr p;
               collected := collected p ++ (if has_gc i then [key i] else []) |}
        end
  end.

(** ** The cluster: one process per rank *)
Inductive dop :=
| DGen (p : rank)                    (* put, submit, actor call on p *)
| DRecv (p : rank) (d : dataid)      (* p unpickles a message containing d *)
| DDrop (p : rank) (k : nat)         (* p drops its k-th strong reference *)
| DClean (p q : rank).               (* q handles a CLEANUP of p: worker/loop.py:203-208,
                                        monitor/loop.py:254-259 *)

Definition generated (ps : list proc) (d : dataid) : bool :=
  match nth_error ps (fst d) with Some o => Nat.ltb (snd d) (counter o) | None => false end.

Definition dstep (ps : list proc) (o : dop) : list proc :=
  match o with
  | DGen p => upd_nth p (generate p) ps
  | DRecv p d => if generated ps d then upd_nth p (fun x => unpickle x d) ps else ps
  | DDrop p k => upd_nth p (fun x => drop_handle x k) ps
  | DClean p q =>
      (* garbage_collector.py:61-69: not sent to the sender itself *)
      if Nat.eqb p q then ps
      else match nth_error ps p with
           | None => ps
           | Some x => upd_nth q (fun y => fold_left (fun z d => construct z d false) (collected x) y) ps
           end
  end.

(** Any history of a number of processes (common.py:266-334, local_object_store.py:182-231). *)
Definition drun (n : nat) (ops : list dop) : list proc := fold_left dstep ops (repeat proc_init n).

(** The IDs created in a history, in order: the [DGen]s of existing processes. The results of generate_data_id
    (local_object_store.py:182-200). *)
Fixpoint created (ps : list proc) (ops : list dop) : list dataid :=
  match ops with
  | [] => []
  | o :: r =>
      (match o with
       | DGen p => match nth_error ps p with Some x => [(p, counter x)] | None => [] end
       | _ => []
       end) ++ created (dstep ps o) r
  end.
