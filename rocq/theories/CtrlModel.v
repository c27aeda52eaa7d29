(** Model of get and wait on the root: controller/api.py:400-505, controller/common.py:113-233
    (core/backends/mpi/core), reached through base/backend.py:264-335.

    BackendProxy takes the references out of ObjectRef-s into a new list and wraps the results of wait
    again; neither changes which references are meant, so the model works on reference names. The places a
    value may live in (local, serialised, shared) are one store, as in WorkerModel. The message for
    an unexpected ID and a KeyError for an unknown owner are outcomes. The regular_cleanup at the end
    is in GcModel. *)
From Verif Require Import Lib ValModel.

(** How get ends (controller/api.py:427-433, controller/common.py:193, 220-233, object_store.py:90). *)
Inductive outcome :=
| GVals (l : list val)          (* a list is returned *)
| GVal (v : val)                (* a bare value is returned *)
| GRaise (e : nat)              (* a task's exception is raised *)
| GUnexpected (d : dataid)      (* RuntimeError: isn't in the requested list *)
| GNoOwner                      (* KeyError from get_data_owner *)
| GMissing                      (* ValueError from object_store.get *)
| GBlocked.                     (* waiting for a reply that has not come *)

(** The argument of get: a reference or a list. controller/api.py:415-417. *)
Inductive garg := One (d : dataid) | Many (ds : list dataid).

(** controller/api.py:416-417. *)
Definition arg_ids (a : garg) : list dataid := match a with One d => [d] | Many ds => ds end.

(** remote_data_ids (api.py:418-420). *)
Definition remote (st : dmap val) (ds : list dataid) : list dataid :=
  filter (fun d => match st d with Some _ => false | None => true end) ds.

(** The requests of request_worker_data (common.py:191-215): (owner, ID), in order. None: KeyError;
    the requests before it were sent. *)
Fixpoint requests_for (owner : dmap rank) (ds : list dataid) : option (list (rank * dataid)) :=
  match ds with
  | [] => Some []
  | d :: r => match owner d, requests_for owner r with
              | Some o, Some l => Some ((o, d) :: l)
              | _, _ => None
              end
  end.

(** The loop of request_worker_data (217-233): one reply after the other is pulled, whatever its source. [count] is
    data_count, [exc] exception_raised. pull_data stores the value (113-171) and gives it back; in the branch for shared
    data an ID already here keeps its value. The lines are in controller/common.py. *)
Inductive pulled := PDone (st : dmap val) (exc : option nat) (rest : list (dataid * val)) | PBad (st : dmap val) (d : dataid) | PWait (st : dmap val).

(** controller/common.py:138-165. *)
Definition pull_store (shared : bool) (st : dmap val) (d : dataid) (v : val) : dmap val * val :=
  if shared then match st d with Some x => (st, x) | None => (dput st d v, v) end
  else (dput st d v, v).

(** The loop as described above (controller/common.py:220-231); fuel is the number of replies at most looked at. *)
Fixpoint pull (shared : dataid -> bool) (ids : list dataid) (fuel count : nat) (st : dmap val) (exc : option nat)
  (replies : list (dataid * val)) : pulled :=
  match fuel with
  | 0 => PDone st exc replies
  | S fuel =>
      if Nat.ltb count (length ids)
      then match replies with
           | [] => PWait st
           | (d, v) :: rest =>
               let (st1, x) := pull_store (shared d) st d v in
               let exc1 := match exc, x with None, VExc e => Some e | _, _ => exc end in
               if did_in d ids then pull shared ids fuel (S count) st1 exc1 rest
               else PBad st1 d
           end
      else PDone st exc replies
  end.

(** object_store.get for every reference (api.py:427). *)
Fixpoint read_all (st : dmap val) (ds : list dataid) : option (list val) :=
  match ds with
  | [] => Some []
  | d :: r => match st d, read_all st r with
              | Some v, Some l => Some (v :: l)
              | _, _ => None
              end
  end.

(** controller/api.py:427-433. *)
Definition give (a : garg) (st : dmap val) : outcome :=
  match read_all st (arg_ids a), a with
  | None, _ => GMissing
  | Some l, Many _ => GVals l
  | Some (v :: _), One _ => GVal v
  | Some [], One _ => GMissing
  end.

(** get (api.py:400-433) with the replies that come to this process, in the order they come. The
    result: the requests sent, the outcome, the store afterwards. *)
Definition get (shared : dataid -> bool) (st : dmap val) (owner : dmap rank) (a : garg) (replies : list (dataid * val))
  : list (rank * dataid) * outcome * dmap val :=
  match remote st (arg_ids a) with
  | [] => ([], give a st, st)
  | rem =>
      match requests_for owner rem with
      | None => ([], GNoOwner, st)
      | Some out =>
          match pull shared rem (length rem) 0 st None replies with
          | PWait st' => (out, GBlocked, st')
          | PBad st' d => (out, GUnexpected d, st')
          | PDone st' (Some e) _ => (out, GRaise e, st')
          | PDone st' None _ => (out, give a st', st')
          end
      end
  end.

(** ** wait (api.py:436-505) *)

Inductive wlocal :=
| WReady (ready not_ready : list dataid)                  (* returned at once *)
| WAsk (ready not_ready : list dataid) (pending : Z).     (* WAIT for not_ready, pending *)

(** list.remove: the first equal element (controller/api.py:470). *)
Fixpoint remove_id (d : dataid) (l : list dataid) : list dataid :=
  match l with [] => [] | x :: r => if did_eqb x d then r else x :: remove_id d r end.

(** The loop over a copy of the list (controller/api.py:467-473). *)
Fixpoint wait_loop (st : dmap val) (n : Z) (copy ready not_ready : list dataid) (pending : Z) : wlocal :=
  match copy with
  | [] => WAsk ready not_ready pending
  | d :: r =>
      match st d with
      | None => wait_loop st n r ready not_ready pending
      | Some _ =>
          let ready' := ready ++ [d] in
          let not_ready' := remove_id d not_ready in
          if (Z.of_nat (length ready') =? n)%Z then WReady ready' not_ready'
          else wait_loop st n r ready' not_ready' (pending - 1)
      end
  end.

(** controller/api.py:463-473. *)
Definition wait_local (st : dmap val) (ds : list dataid) (n : Z) : wlocal := wait_loop st n ds [] ds n.

(** data_id_map: the last of equal references; names are equal, so it gives back the name. None: KeyError.
    controller/api.py:462, 498-499. *)
Definition map_back (ds : list dataid) (l : list dataid) : option (list dataid) :=
  if forallb (fun d => did_in d ds) l then Some l else None.

(** The end (controller/api.py:494-505), with the monitor's answer. *)
Definition wait_end (ds ready : list dataid) (answer : list dataid * list dataid) : option (list dataid * list dataid) :=
  match map_back ds (ready ++ fst answer), map_back ds (snd answer) with
  | Some r, Some nr => Some (r, nr)
  | _, _ => None
  end.
