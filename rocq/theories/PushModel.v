(** Model of sending data to another process: push_data and its helpers
    (core/backends/mpi/core/controller/common.py:236-415), the "already sent" cache
    (local_object_store.py:233-267) and submission (controller/api.py:508-580,
    controller/actor.py:36-64).

    Where the value lives (local store, serialised cache, shared memory: 396-410) only selects the
    kind of message; all of them carry the value of the reference and are guarded by the same
    "already sent" check, so the model has one store and one message. *)
From Verif Require Import Lib ValModel.

(** Messages from this process to another one, in the order they are sent. controller/common.py:253-365,
    controller/api.py:559-574, controller/actor.py:46-62. *)
Inductive msg :=
| MValue (d : dataid)                         (* PUT_DATA / PUT_SHARED_DATA / blocking reply *)
| MOwner (d : dataid) (owner : rank)          (* PUT_OWNER *)
| MTask (n : nat).                            (* EXECUTE / ACTOR_EXECUTE, numbered *)

(** local_object_store.py:24-38. *)
Record pst := {
  p_store : list dataid;                      (* references whose value this process holds *)
  p_owner : dmap rank;                        (* local_store._data_owner_map *)
  p_sent : list (dataid * rank);              (* local_store._sent_data_map *)
  p_out : list (rank * msg)                   (* everything sent so far, with destination *)
}.

(** LocalObjectStore.is_already_sent (local_object_store.py:249-267). *)
Definition is_sent (l : list (dataid * rank)) (d : dataid) (r : rank) : bool :=
  existsb (fun p => did_eqb (fst p) d && Nat.eqb (snd p) r) l.

(** _push_local_data / _push_shared_data (controller/common.py:236-338). *)
Definition push_value (p : pst) (dest : rank) (d : dataid) : pst :=
  if is_sent (p_sent p) d dest then p
  else {| p_store := p_store p; p_owner := p_owner p; p_sent := p_sent p ++ [(d, dest)];
          p_out := p_out p ++ [(dest, MValue d)] |}.

(** _push_data_owner (controller/common.py:341-365). *)
Definition push_owner (p : pst) (dest : rank) (d : dataid) (o : rank) : pst :=
  {| p_store := p_store p; p_owner := p_owner p; p_sent := p_sent p;
     p_out := p_out p ++ [(dest, MOwner d o)] |}.

(** The branch for a reference (controller/common.py:391-415); [None] is ValueError("Unknown DataID!"). *)
Definition push_ref (p : pst) (dest : rank) (d : dataid) : option pst :=
  if did_in d (p_store p) then Some (push_value p dest d)
  else match p_owner p d with
       | Some o => Some (push_owner p dest d o)
       | None => None
       end.

(** push_data (controller/common.py:368-415). *)
Fixpoint push_data (p : pst) (dest : rank) (v : val) : option pst :=
  match v with
  | VRef d => push_ref p dest d
  | VList l | VTuple l =>
      (fix go (p : pst) (l : list val) : option pst :=
         match l with
         | [] => Some p
         | x :: r => match push_data p dest x with Some p' => go p' r | None => None end
         end) p l
  | VDict l =>
      (fix go (p : pst) (l : list (nat * val)) : option pst :=
         match l with
         | [] => Some p
         | kv :: r => match push_data p dest (snd kv) with Some p' => go p' r | None => None end
         end) p l
  | VLeaf _ | VExc _ => Some p
  end.

(** isend_complex_operation of the request (controller/api.py:568-574, controller/actor.py:56-62). *)
Definition send_task (p : pst) (dest : rank) (n : nat) : pst :=
  {| p_store := p_store p; p_owner := p_owner p; p_sent := p_sent p;
     p_out := p_out p ++ [(dest, MTask n)] |}.

(** submit (controller/api.py:538-575), ActorMethod.__call__ (controller/actor.py:36-63): the task or method name, the
    arguments, the keyword arguments, then the request itself. The outputs were given to [dest] as owner before
    (local_object_store.py:220-231). *)
Definition submit (p : pst) (dest : rank) (n : nat) (outputs : list dataid) (task args kwargs : val)
  : option pst :=
  let p0 := {| p_store := p_store p;
               p_owner := fold_left (fun m d => dput m d dest) outputs (p_owner p);
               p_sent := p_sent p; p_out := p_out p |} in
  match push_data p0 dest task with
  | None => None
  | Some p1 =>
      match push_data p1 dest args with
      | None => None
      | Some p2 =>
          match push_data p2 dest kwargs with
          | None => None
          | Some p3 => Some (send_task p3 dest n)
          end
      end
  end.

(** The operations of a process that send values. *)
Inductive pop :=
| PSubmit (dest : rank) (n : nat) (outputs : list dataid) (task args kwargs : val)
| PReply (dest : rank) (d : dataid)           (* process_get_request, request_store.py:252-259 *)
| PHave (d : dataid)                          (* a value becomes available here *)
| POwnerIs (d : dataid) (r : rank)            (* put_data_owner *)
| PForget (d : dataid).                       (* the last reference to d dies in this process: all
                                                 maps are WeakKeyDictionary-s
                                                 (local_object_store.py:26-39) *)

(** A failing submission raises: what was sent before the exception stays sent. controller/common.py:386-415. *)
Fixpoint push_some (p : pst) (dest : rank) (ds : list dataid) : pst * bool :=
  match ds with
  | [] => (p, true)
  | d :: r => match push_ref p dest d with
              | Some p' => push_some p' dest r
              | None => (p, false)
              end
  end.

(** controller/api.py:508-580, controller/common.py:368-415, local_object_store.py:73-99, 165-180, 233-247. *)
Definition pstep (p : pst) (o : pop) : pst :=
  match o with
  | PSubmit dest n outputs task args kwargs =>
      match submit p dest n outputs task args kwargs with
      | Some p' => p'
      | None =>
          fst (push_some {| p_store := p_store p;
                  p_owner := fold_left (fun m d => dput m d dest) outputs (p_owner p);
                  p_sent := p_sent p; p_out := p_out p |} dest
                 (refs task ++ refs args ++ refs kwargs))
      end
  | PReply dest d => if did_in d (p_store p) then push_value p dest d else p
  | PHave d => {| p_store := d :: p_store p; p_owner := p_owner p; p_sent := p_sent p; p_out := p_out p |}
  | POwnerIs d r => {| p_store := p_store p; p_owner := dput (p_owner p) d r; p_sent := p_sent p;
                       p_out := p_out p |}
  | PForget d => {| p_store := filter (fun x => negb (did_eqb x d)) (p_store p);
                    p_owner := ddel (p_owner p) d;
                    p_sent := filter (fun x => negb (did_eqb (fst x) d)) (p_sent p);
                    p_out := p_out p |}
  end.

(** LocalObjectStore.__init__ (local_object_store.py:24-38). *)
Definition pinit : pst := {| p_store := []; p_owner := dempty; p_sent := []; p_out := [] |}.

(** Any history of one process (controller/api.py:371-580). *)
Definition prun (ops : list pop) : pst := fold_left pstep ops pinit.
