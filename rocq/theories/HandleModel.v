(** Actors that are created: ACTOR_CREATE and the look-up of methods, around the worker of WorkerModel, and handles that
    are passed between processes (core/backends/mpi/core: controller/actor.py:36-194, worker/loop.py:176-201).

    Simplifications. A class, and a method's name, is a number. Objects are of any type, and a method is a function of
    the object, its arguments and keyword arguments, to the changed object and the result; a constructor may raise.
    Constructors and methods that call the API themselves are not modelled here (the calls another process makes with a handle are, below). An
    actor is never removed from actor_map, as in the code. *)
From Verif Require Import Lib ValModel WorkerModel.

(** What Python makes of the user's classes: [construct c args kwargs] is cls called with args and kwargs (worker/loop.py:183), None if it
    raises; [has o n]: getattr(o, n) succeeds (worker/loop.py:192); [meth o n args kwargs]: the method's effect and result
    (worker/task_store.py:250, 339); [co o n]: inspect.iscoroutinefunction of the bound method (worker/task_store.py:233). *)
Record classes := {
  obj : Type;
  construct : nat -> val -> val -> option obj;
  has : obj -> nat -> bool;
  meth : obj -> nat -> val -> val -> obj * result;
  co : obj -> nat -> bool
}.

(** The messages of worker/loop.py:113-221: those of WorkerModel, ACTOR_CREATE with handle, class, arguments
    (controller/actor.py:113-119), ACTOR_EXECUTE with handle, the reference nd to the method's name, and the rest of the request
    (controller/actor.py:46-54). [HM] with a method instead of a function's reference is not sent by
    anybody and is ignored. *)
Inductive hmsg :=
| HM (m : wmsg)
| HCreate (h : dataid) (c : nat) (args kwargs : val)
| HCall (h nd : dataid) (q : request).

(** A request that names a method directly: not in the code, where it is looked up in actor_map (worker/loop.py:188-193). *)
Definition direct (m : wmsg) : bool :=
  match m with
  | WActor _ => true
  | WExec q => match q_fn q with FMethod _ => true | FRef _ => false end
  | _ => false
  end.

(** Why an exception left the loop: no value for the method's name (worker/loop.py:190), KeyError in actor_map or no such
    attribute (worker/loop.py:192), the constructor raised (worker/loop.py:183), or an exception in WorkerModel's part. *)
Inductive death := DName | DHandle | DAttr | DInit | DTask.

(** An actor made here: its handle, class and constructor arguments, and the object right after cls(...) (worker/loop.py:177-183). *)
Record made (C : classes) := { a_handle : dataid; a_class : nat; a_args : val; a_kwargs : val; a_obj : obj C }.
Arguments a_handle {C}. Arguments a_class {C}. Arguments a_args {C}. Arguments a_kwargs {C}. Arguments a_obj {C}.

(** The worker's state: [hw] as in WorkerModel; [hmade] the actors made, oldest first (actor_map, worker/loop.py:39); [hbound]
    the bound methods that requests hold (request["task"], worker/loop.py:192-193): position of the actor in hmade, name. A
    request's FMethod m is the m-th of them. *)
Record hst (C : classes) := { hw : wst; hmade : list (made C); hbound : list (nat * nat) }.
Arguments hw {C}. Arguments hmade {C}. Arguments hbound {C}.

(** worker/loop.py:39, 88-102. *)
Definition hinit {C} : hst C := {| hw := winit; hmade := []; hbound := [] |}.

(** The object a position in hmade holds after the calls so far: each call on it changed it in turn
    (worker/task_store.py:250, 339). *)
Definition object_now (C : classes) (bound : list (nat * nat)) (i : nat) (calls : list call) (o : obj C) : obj C :=
  fold_left (fun o c => match nth_error bound (c_method c) with
                        | Some (j, n) => if Nat.eqb j i then fst (meth C o n (c_args c) (c_kwargs c)) else o
                        | None => o end) calls o.

(** The body of a bound method (worker/task_store.py:250, 339), in the form WorkerModel wants. *)
Definition hbody (C : classes) (made : list (made C)) (bound : list (nat * nat)) (before : list call) (c : call) : result :=
  match nth_error bound (c_method c) with
  | Some (i, n) =>
      match nth_error made i with
      | Some x => snd (meth C (object_now C bound i before (a_obj x)) n (c_args c) (c_kwargs c))
      | None => RExc 0
      end
  | None => RExc 0
  end.

(** inspect.iscoroutinefunction(task) (worker/task_store.py:233) for functions and bound methods. *)
Definition hasync (C : classes) (fco : val -> bool) (made : list (made C)) (bound : list (nat * nat)) (c : callee) : bool :=
  match c with
  | CFun f => fco f
  | CMethod m =>
      match nth_error bound m with
      | Some (i, n) => match nth_error made i with Some x => co C (a_obj x) n | None => false end
      | None => false
      end
  end.

(** actor_map[handler] (worker/loop.py:192): the position of the actor last made under that handle. *)
Fixpoint lookup {C} (made : list (made C)) (h : dataid) (i : nat) : option nat :=
  match made with
  | [] => None
  | x :: r => match lookup r h (S i) with
              | Some j => Some j
              | None => if did_eqb (a_handle x) h then Some i else None
              end
  end.

(** The worker goes on, or an exception leaves worker_loop (worker/loop.py:103-233). *)
Inductive fate (C : classes) := Lives (s : hst C) | Dies (why : death).
Arguments Lives {C}. Arguments Dies {C}.

Section Worker.
Variable C : classes.
Variable self : rank.
Variable body : val -> val -> val -> result.
Variable fco : val -> bool.

(** The part of worker/loop.py:103-233 that is in WorkerModel. *)
Definition inner (s : hst C) (bound : list (nat * nat)) (m : wmsg) : fate C :=
  match wstep self body (hbody C (hmade s) bound) (hasync C fco (hmade s) bound) (hw s) m with
  | Some w => Lives {| hw := w; hmade := hmade s; hbound := bound |}
  | None => Dies DTask
  end.

(** request["task"] = actor_method (worker/loop.py:193). *)
Definition with_method (q : request) (m : nat) : request :=
  {| q_id := q_id q; q_fn := FMethod m; q_args := q_args q; q_kwargs := q_kwargs q; q_out := q_out q |}.

(** One turn of the loop (worker/loop.py:103-233). After CANCEL messages are received and not acted upon. *)
Definition hstep (s : hst C) (m : hmsg) : fate C :=
  match m with
  | HM m => if direct m then Lives s else inner s (hbound s) m
  | HCreate h c args kwargs =>                        (* worker/loop.py:176-183 *)
      if ready (hw s) then Lives s
      else match construct C c args kwargs with
           | Some o => Lives {| hw := hw s; hbound := hbound s;
                                hmade := hmade s ++ [{| a_handle := h; a_class := c; a_args := args; a_kwargs := kwargs; a_obj := o |}] |}
           | None => Dies DInit
           end
  | HCall h nd q =>                                   (* worker/loop.py:185-201 *)
      if ready (hw s) then Lives s
      else match store (hw s) nd with
           | Some (VLeaf n) =>
               match lookup (hmade s) h 0 with
               | None => Dies DHandle
               | Some i =>
                   match nth_error (hmade s) i with
                   | None => Dies DHandle
                   | Some x =>
                       if has C (object_now C (hbound s) i (calls (hw s)) (a_obj x)) n
                       then inner s (hbound s ++ [(i, n)]) (WActor (with_method q (length (hbound s))))
                       else Dies DAttr
                   end
               end
           | Some _ => Dies DAttr                     (* getattr with a name that is no string *)
           | None => Dies DName
           end
  end.

(** worker_loop (worker/loop.py:103-233) on any messages. *)
Fixpoint hrun (s : hst C) (ms : list hmsg) : fate C :=
  match ms with
  | [] => Lives s
  | m :: r => match hstep s m with Lives s' => hrun s' r | Dies why => Dies why end
  end.
End Worker.

(** ** Several processes that pass handles around *)

(** A message with the handles pickled inside it (controller/actor.py:130-187). The second list is not in the code: the
    actors of which the sender knew, when it sent the message, that they had been built. *)
Record letter := { l_msg : hmsg; l_handles : list dataid; l_built : list dataid }.

(** All processes. [n_knows p]: the handles p has, made by itself or received. [n_where], [n_maker]: the rank in a handle
    (Actor._owner_rank, controller/actor.py:95-99) and the process that created the actor. [n_built p] is not in the code: the actors of
    which p has heard, through any chain of messages, that they were built. n_dead: why a process ended.
    State of worker/loop.py:39-102 and controller/actor.py:91-128. *)
Record nst (C : classes) := {
  n_work : rank -> hst C;
  n_dead : rank -> option death;
  n_chan : rank -> rank -> list letter;
  n_knows : rank -> list dataid;
  n_where : dmap rank;
  n_maker : dmap rank;
  n_built : rank -> list dataid
}.
Arguments n_work {C}. Arguments n_dead {C}. Arguments n_chan {C}. Arguments n_knows {C}. Arguments n_where {C}.
Arguments n_maker {C}. Arguments n_built {C}.

(** After init (controller/api.py:117-288): no actors, nothing under way. *)
Definition n_init {C} : nst C :=
  {| n_work := fun _ => hinit; n_dead := fun _ => None; n_chan := fun _ _ => []; n_knows := fun _ => [];
     n_where := dempty; n_maker := dempty; n_built := fun _ => [] |}.

(** Setting one entry. Not in the code, where each process has its own memory (worker/loop.py:88-102). *)
Definition at_rank {A} (f : rank -> A) (r : rank) (a : A) : rank -> A := fun x => if Nat.eqb x r then a else f x.
(** The same for two: one channel. MPI's channels are per sender and receiver (communication.py:887-980). *)
Definition at_pair {A} (f : rank -> rank -> A) (r s : rank) (a : A) : rank -> rank -> A :=
  fun x y => if Nat.eqb x r && Nat.eqb y s then a else f x y.

(** What a process can do. *)
Inductive nop :=
| NCreate (p w : rank) (h : dataid) (c : nat) (args kwargs : val)   (* Actor(cls, ...), scheduled on rank w (controller/actor.py:91-128) *)
| NCall (p : rank) (h nd : dataid) (n : nat) (q : request)         (* a method of a handle p has is called (controller/actor.py:36-64) *)
| NSend (p d : rank) (m : wmsg) (hs : list dataid)                 (* anything else p sends, with some handles p has (controller/common.py:236-415) *)
| NTake (s d : rank).                                              (* d takes its next message from s (worker/loop.py:103-113) *)

Section Net.
Variable C : classes.
Variable body : val -> val -> val -> result.
Variable fco : val -> bool.

(** isend (communication.py:923-980): the letter goes to the end of the channel. *)
Definition n_send (s : nst C) (p d : rank) (m : hmsg) (hs : list dataid) : rank -> rank -> list letter :=
  at_pair (n_chan s) p d (n_chan s p d ++ [{| l_msg := m; l_handles := hs; l_built := n_built s p |}]).

(** The receiver knows the handles inside, and has heard what the sender had heard (Actor._deserialization_helper,
    controller/actor.py:149-168). *)
Definition n_learn (s : nst C) (d : rank) (ch : rank -> rank -> list letter) (l : letter) : nst C :=
  {| n_work := n_work s; n_dead := n_dead s; n_chan := ch;
     n_knows := at_rank (n_knows s) d (n_knows s d ++ l_handles l);
     n_where := n_where s; n_maker := n_maker s;
     n_built := at_rank (n_built s) d (n_built s d ++ l_built l) |}.

(** The actor that a message taken by a worker has built: actor_map has it (worker/loop.py:183). *)
Definition just_built (s : hst C) (m : hmsg) : list dataid :=
  match m with HCreate h _ _ _ => if ready (hw s) then [] else [h] | _ => [] end.

(** The operations above. The root (rank 0) has no worker_loop and only receives (controller/api.py:117-288). The name of the
    method is sent with the call (controller/actor.py:42, 189-194; in the code only if that process has not sent it before). *)
Definition nstep (s : nst C) (o : nop) : nst C :=
  match o with
  | NCreate p w h c args kwargs =>
      match n_where s h, w with
      | Some _, _ => s                                (* generate_data_id gives new IDs (local_object_store.py:182-200) *)
      | None, 0 => s                                  (* schedule_rank gives workers (controller/common.py:53-75) *)
      | None, _ =>
          {| n_work := n_work s; n_dead := n_dead s; n_chan := n_send s p w (HCreate h c args kwargs) [];
             n_knows := at_rank (n_knows s) p (n_knows s p ++ [h]);
             n_where := dput (n_where s) h w; n_maker := dput (n_maker s) h p; n_built := n_built s |}
      end
  | NCall p h nd n q =>
      match n_where s h with
      | Some w =>
          if did_in h (n_knows s p) then
            {| n_work := n_work s; n_dead := n_dead s;
               n_chan := at_pair (n_chan s) p w
                 (n_chan s p w ++ [{| l_msg := HM (WPut nd (VLeaf n)); l_handles := []; l_built := n_built s p |};
                                   {| l_msg := HCall h nd q; l_handles := []; l_built := n_built s p |}]);
               n_knows := n_knows s; n_where := n_where s; n_maker := n_maker s; n_built := n_built s |}
          else s
      | None => s
      end
  | NSend p d m hs =>
      if forallb (fun h => did_in h (n_knows s p)) hs then
        {| n_work := n_work s; n_dead := n_dead s; n_chan := n_send s p d (HM m) hs;
           n_knows := n_knows s; n_where := n_where s; n_maker := n_maker s; n_built := n_built s |}
      else s
  | NTake src d =>
      match n_chan s src d, n_dead s d with
      | l :: r, None =>
          let s1 := n_learn s d (at_pair (n_chan s) src d r) l in
          if Nat.eqb d 0 then s1
          else match hstep C d body fco (n_work s d) (l_msg l) with
               | Lives x =>
                   {| n_work := at_rank (n_work s1) d x; n_dead := n_dead s1; n_chan := n_chan s1; n_knows := n_knows s1;
                      n_where := n_where s1; n_maker := n_maker s1;
                      n_built := at_rank (n_built s1) d (n_built s1 d ++ just_built (n_work s d) (l_msg l)) |}
               | Dies why =>
                   {| n_work := n_work s1; n_dead := at_rank (n_dead s1) d (Some why); n_chan := n_chan s1; n_knows := n_knows s1;
                      n_where := n_where s1; n_maker := n_maker s1; n_built := n_built s1 |}
               end
      | _, _ => s
      end
  end.

(** Any interleaving of any processes (worker/loop.py:103-233, controller/actor.py:36-128). *)
Definition nrun (ops : list nop) : nst C := fold_left nstep ops n_init.
End Net.
