(** Model of the sequential backend: core/backends/pyseq/core/api.py, core/backends/pyseq/core/object_store.py,
    core/backends/pyseq/{backend,remote_function,actor}.py and the parts of core/base that pass the calls on
    (base/common.py:20-49, base/backend.py:264-335, base/remote_function.py, base/actor.py).

    A reference is the data ID it wraps: filter_arguments unwraps top-level references and a nested reference is
    passed on as it is, so [VRef] stands for both. Data IDs are random and distinct (uuid4): here they are
    numbered. What the user's functions compute is an oracle that cannot call the API. *)
From Verif Require Import Lib ValModel.

(** What a Python call does. pyseq/core/api.py:101-123. *)
Inductive res := Ret (v : val) | Exn (e : nat).

(** Keyword arguments, the names numbered (pyseq/core/api.py:77). *)
Definition kwargs : Type := list (nat * val).

(** The calls of a program (pyseq/core/api.py:43-123, pyseq/remote_function.py:34-81, pyseq/actor.py:29-133,
    pyseq/backend.py:62-121). *)
Inductive qop :=
| QPut (v : val)
| QSubmit (f : nat) (args : list val) (kw : kwargs) (n : nat) (reserve : bool)
                                        (* f.remote(...) with num_returns = n; [reserve]: num_cpus or resources given *)
| QActor (c : nat) (args : list val) (kw : kwargs) (reserve : bool)      (* c.remote(...) *)
| QCall (a m : nat) (args : list val) (kw : kwargs) (n : nat)            (* a.m.remote(...) *)
| QGet (v : val)
| QGetMany (l : list val)
| QWait (l : list dataid) (n : nat).

(** What these return or raise (same lines; pyseq/core/object_store.py:56-85). *)
Inductive qout :=
| ORef (d : dataid) | ORefs (l : list dataid) | ONone
| OActor (a : nat)
| OVal (v : val) | OVals (l : list val)
| OWait (ready not_ready : list dataid)
| ORaise (e : nat)                       (* an exception of the user's code is raised *)
| OError.                                (* the library raises: NotImplementedError, ValueError, KeyError, IndexError, TypeError *)

(** pyseq/core/object_store.py:15-17, pyseq/actor.py:123-133. *)
Record qst := {
  q_next : nat;
  q_store : dmap val;                    (* ObjectStore.store *)
  q_actors : list val                    (* the state of each actor's object *)
}.

(** pyseq/core/object_store.py:15-17. *)
Definition qinit : qst := {| q_next := 0; q_store := dempty; q_actors := [] |}.

Section Pyseq.
Variable body : nat -> list val -> kwargs -> res.                 (* functions *)
Variable cbody : nat -> list val -> kwargs -> res.                (* constructors: the state of the new object *)
Variable mbody : nat -> val -> list val -> kwargs -> res * val.   (* methods: result and state afterwards *)
Variable item : val -> nat -> option val.   (* v[i] of an object that is neither list, tuple nor exception *)

(** result[idx]. pyseq/core/api.py:101-123. *)
Definition index (v : val) (i : nat) : option val :=
  match v with
  | VList l | VTuple l => nth_error l i
  | VExc _ => None
  | _ => item v i
  end.

(** ObjectStore.put (object_store.py:35-54). *)
Definition qput (st : qst) (v : val) : qst * dataid :=
  ({| q_next := S (q_next st); q_store := dput (q_store st) (0, q_next st) v; q_actors := q_actors st |}, (0, q_next st)).

(** ObjectStore.get for one ID (pyseq/core/object_store.py:56-85). *)
Inductive got := Got (v : val) | GotExc (e : nat) | GotError.

(** pyseq/core/object_store.py:70-85. *)
Definition qget (st : qst) (v : val) : got :=
  match v with
  | VRef d => match q_store st d with
              | Some (VExc e) => GotExc e
              | Some x => Got x
              | None => GotError
              end
  | _ => GotError
  end.

(** ... and for a list: the values are read in order, the first exception is raised; the check that all are IDs comes first.
    pyseq/core/object_store.py:70-85. *)
Inductive gots := Gots (l : list val) | GotsExc (e : nat) | GotsError.

(** pyseq/core/object_store.py:70-85. *)
Fixpoint qgets (st : qst) (l : list val) : gots :=
  match l with
  | [] => Gots []
  | v :: r => match qget st v with
              | Got x => match qgets st r with
                         | Gots xs => Gots (x :: xs)
                         | o => o
                         end
              | GotExc e => GotsExc e
              | GotError => GotsError
              end
  end.

(** is_data_id (pyseq/core/object_store.py:70-77, pyseq/core/api.py:101-123). *)
Definition is_ref (v : val) : bool := match v with VRef _ => true | _ => false end.

(** materialized_args, materialized_kwargs (core/api.py:103-109). *)
Fixpoint materialize (st : qst) (l : list val) : gots :=
  match l with
  | [] => Gots []
  | v :: r => match (if is_ref v then qget st v else Got v) with
              | Got x => match materialize st r with
                         | Gots xs => Gots (x :: xs)
                         | o => o
                         end
              | GotExc e => GotsExc e
              | GotError => GotsError
              end
  end.

(** The puts of several results (core/api.py:119): an index that is missing raises, after the puts before it. *)
Fixpoint put_items (st : qst) (v : val) (idx n : nat) : qst * option (list dataid) :=
  match n with
  | O => (st, Some [])
  | S n' => match index v idx with
            | None => (st, None)
            | Some x => let (st1, d) := qput st x in
                        match put_items st1 v (S idx) n' with
                        | (st2, Some ds) => (st2, Some (d :: ds))
                        | (st2, None) => (st2, None)
                        end
            end
  end.

(** submit after the call (core/api.py:111-123) and the wrapping of its result
    (remote_function.py:80-85, actor.py:59-64). *)
Definition store_result (st : qst) (r : res) (n : nat) : qst * qout :=
  let result := match r with
                | Ret v => v
                | Exn e => if Nat.ltb 1 n then VList (repeat (VExc e) n) else VExc e
                end in
  if Nat.eqb n 0 then (st, ONone)
  else if Nat.ltb 1 n then
    match put_items st result 0 n with
    | (st', Some ds) => (st', ORefs ds)
    | (st', None) => (st', OError)
    end
  else let (st', d) := qput st result in (st', ORef d).

(** A method changes its object (pyseq/actor.py:52-63). *)
Definition set_actor (st : qst) (a : nat) (s : val) : qst :=
  {| q_next := q_next st; q_store := q_store st;
     q_actors := firstn a (q_actors st) ++ s :: skipn (S a) (q_actors st) |}.

Definition qstep (st : qst) (o : qop) : qst * qout :=
  match o with
  | QPut v => let (st', d) := qput st v in (st', ORef d)
  | QSubmit f args kw n reserve =>                               (* remote_function.py:36-85 *)
      if reserve then (st, OError) else
      match materialize st args with
      | Gots vs => match materialize st (map snd kw) with
                   | Gots ks => store_result st (body f vs (combine (map fst kw) ks)) n
                   | GotsExc e => (st, ORaise e)
                   | GotsError => (st, OError)
                   end
      | GotsExc e => (st, ORaise e)
      | GotsError => (st, OError)
      end
  | QActor c args kw reserve =>                                  (* base/actor.py:220-238, pyseq/actor.py:104-133 *)
      if reserve then (st, OError) else
      match cbody c args kw with
      | Ret s => ({| q_next := q_next st; q_store := q_store st; q_actors := q_actors st ++ [s] |},
                  OActor (length (q_actors st)))
      | Exn e => (st, ORaise e)
      end
  | QCall a m args kw n =>                                       (* pyseq/actor.py:29-64 *)
      match nth_error (q_actors st) a with
      | None => (st, OError)
      | Some s =>
          match materialize st args with
          | Gots vs => match materialize st (map snd kw) with
                       | Gots ks => let (r, s') := mbody m s vs (combine (map fst kw) ks) in
                                    store_result (set_actor st a s') r n
                       | GotsExc e => (st, ORaise e)
                       | GotsError => (st, OError)
                       end
          | GotsExc e => (st, ORaise e)
          | GotsError => (st, OError)
          end
      end
  | QGet v => match qget st v with
              | Got x => (st, OVal x)
              | GotExc e => (st, ORaise e)
              | GotError => (st, OError)
              end
  | QGetMany l => if forallb is_ref l
                  then match qgets st l with
                       | Gots xs => (st, OVals xs)
                       | GotsExc e => (st, ORaise e)
                       | GotsError => (st, OError)
                       end
                  else (st, OError)
  | QWait l n => (st, OWait (firstn n l) (skipn n l))            (* backend.py:95-121 *)
  end.

(** A program: any sequence of calls; its history, the latest call first, with what each returned. The calls are those of
    pyseq/core/api.py:43-123 and pyseq/backend.py:62-121. *)
Definition hist : Type := list (qop * qout).

(** Any history (pyseq/core/api.py:43-123). *)
Fixpoint qrun (st : qst) (h : hist) (ops : list qop) : qst * hist :=
  match ops with
  | [] => (st, h)
  | o :: r => let (st', out) := qstep st o in qrun st' ((o, out) :: h) r
  end.

End Pyseq.
