(** The MPI backend as a whole (ClusterModel), now also with actors and coroutines.

    Added to ClusterModel: calls of actor methods by the root (mpi/core/controller/actor.py:36-64,189-194),
    which a worker takes as ACTOR_EXECUTE (worker/loop.py:185-201, WorkerModel), and functions or
    methods that are coroutines, which end at any later moment (task_store.py:233-324, WorkerModel).

    Simplifications, besides those of ClusterModel: actors exist from the start (ACTOR_CREATE,
    worker/loop.py:176-183, is not modelled), the number in a method call stands for the actor's handle
    and the method's name, and the reservation of ranks for actors is in SchedModel. *)
From Verif Require Import Lib ValModel ShmModel PushModel WorkerModel WorkerSpec MonModel ClusterModel.

(** What the root does: an operation of ClusterModel, or a call of a method of an actor on rank dest.
    nd is the reference to the method's name (controller/actor.py:42-48). *)
Inductive gprog := GP (o : rop) | GC (dest : rank) (nd : dataid) (q : request).

(** The state of all processes, that of ClusterModel (worker/loop.py:88-102, monitor/loop.py:180-187), and the program of
    the root so far, with its method calls (controller/actor.py:36-64). *)
Record gst := { g_c : cst; g_prog : list gprog }.

(** Every process after unidist.init (controller/api.py:117-288, worker/loop.py:88-102), before the first call. *)
Definition ginit (mgr : manager) : gst := {| g_c := cinit mgr; g_prog := [] |}.

(** The message for a push of a method call. What push_data (controller/common.py:386-415) and isend_complex_operation
    (controller/actor.py:56-62) put on the wire. *)
Definition to_call (vals : dmap val) (q : request) (m : msg) : list wmsg :=
  match m with
  | MValue d => match vals d with Some v => [WPut d v] | None => [] end
  | MOwner d o => [WOwner d o]
  | MTask _ => [WActor q]
  end.

(** All messages of one ActorMethod.__call__ (controller/actor.py:42-63), with their receivers. *)
Definition pushed_call (vals : dmap val) (q : request) (l : list (rank * msg)) : list (rank * wmsg) :=
  flat_map (fun p => map (fun m => (fst p, m)) (to_call vals q (snd p))) l.

(** ActorMethod.__call__ (actor.py:36-64): like submit, but the garbage collector's counter is not
    incremented (in submit: api.py:577). *)
Definition root_call (c : cst) (dest : rank) (nd : dataid) (q : request) : cst :=
  let p' := pstep (c_push c) (PSubmit dest (q_id q) (out_ids (q_out q)) (VRef nd) (q_args q) (q_kwargs q)) in
  let ok := match submit (c_push c) dest (q_id q) (out_ids (q_out q)) (VRef nd) (q_args q) (q_kwargs q) with
            | Some _ => true | None => false end in
  let out := pushed_call (c_vals c) q (skipn (length (p_out (c_push c))) (p_out p')) in
  {| c_push := p'; c_vals := c_vals c; c_tasks := c_tasks c; c_want := c_want c; c_ids := c_ids c;
     c_left := c_left c; c_exc := c_exc c; c_work := c_work c; c_dead := c_dead c;
     c_chan := fun s d => if Nat.eqb s 0 then c_chan c s d ++ sends_to d out else c_chan c s d;
     c_done := c_done c; c_mon := c_mon c; c_prog := c_prog c;
     c_seen := c_seen c ++ (if ok then [] else [RError]); c_out := c_out c ++ out; c_in := c_in c |}.

Section Act.
Variable workers : list rank.
Variable body : val -> val -> val -> result.
Variable mbody : list call -> call -> result.
Variable is_async : callee -> bool.

(** A worker takes m, which came from src; ch are the channels without m. One turn of the loop in worker/loop.py:103-233;
    None is an exception that leaves the loop and so ends the process. *)
Definition deal (c : cst) (src dst : rank) (m : wmsg) (ch : rank -> rank -> list wmsg) : cst :=
  match wstep dst body mbody is_async (c_work c dst) m with
  | None =>
      {| c_push := c_push c; c_vals := c_vals c; c_tasks := c_tasks c; c_want := c_want c;
         c_ids := c_ids c; c_left := c_left c; c_exc := c_exc c; c_work := c_work c;
         c_dead := fun r => if Nat.eqb r dst then true else c_dead c r;
         c_chan := ch; c_done := c_done c; c_mon := c_mon c;
         c_prog := c_prog c; c_seen := c_seen c; c_out := c_out c; c_in := c_in c |}
  | Some w' =>
      let new := skipn (length (log (c_work c dst))) (log w') in
      {| c_push := c_push c; c_vals := c_vals c; c_tasks := c_tasks c; c_want := c_want c;
         c_ids := c_ids c; c_left := c_left c; c_exc := c_exc c;
         c_work := fun r => if Nat.eqb r dst then w' else c_work c r;
         c_dead := c_dead c;
         c_chan := fun s d => if Nat.eqb s dst then ch s d ++ outgoing dst new d else ch s d;
         c_done := fun s => if Nat.eqb s dst then c_done c s ++ reports new else c_done c s;
         c_mon := c_mon c; c_prog := c_prog c; c_seen := c_seen c; c_out := c_out c;
         c_in := fun r => if Nat.eqb r dst then c_in c r ++ [(src, m)] else c_in c r |}
  end.

(** A worker takes the next message from src (worker/loop.py:103-233). *)
Definition gtake (c : cst) (src dst : rank) : cst :=
  match c_chan c src dst with
  | [] => c
  | m :: _ =>
      if Nat.eqb dst 0 || c_dead c dst then c else deal c src dst m (drop_head (c_chan c) src dst)
  end.

(** The i-th running coroutine of a worker ends (task_store.py:233-324). *)
Definition finish (c : cst) (dst : rank) (i : nat) : cst :=
  match nth_error (running (c_work c dst)) i with
  | None => c
  | Some _ => if Nat.eqb dst 0 || c_dead c dst then c else deal c dst dst (WFinish i) (c_chan c)
  end.

(** One step of some process: the root goes on with its program (controller/api.py:371-580, controller/actor.py:36-64), a
    worker takes a message (worker/loop.py:103-233), the root receives an answer in get (controller/api.py:420-428), the
    monitor takes a TASK_DONE (monitor/loop.py:197-203), a coroutine ends (worker/task_store.py:233-324). *)
Inductive gop :=
| GRoot (p : gprog)
| GTake (src dst : rank)
| GReply (src : rank)
| GDone (src : rank)
| GFinish (dst : rank) (i : nat).

(** The operations above. The root does nothing else while it waits in get (c_left, controller/common.py:216-233). *)
Definition gstep (g : gst) (o : gop) : gst :=
  match o with
  | GRoot p =>
      match c_left (g_c g) with
      | 0 => {| g_c := match p with GP o => root_step workers (g_c g) o | GC dest nd q => root_call (g_c g) dest nd q end;
                g_prog := g_prog g ++ [p] |}
      | _ => g
      end
  | GTake s d => {| g_c := gtake (g_c g) s d; g_prog := g_prog g |}
  | GReply s => {| g_c := reply (g_c g) s; g_prog := g_prog g |}
  | GDone s => {| g_c := done workers (g_c g) s; g_prog := g_prog g |}
  | GFinish d i => {| g_c := finish (g_c g) d i; g_prog := g_prog g |}
  end.

(** Any interleaving of the processes, from the state after init (controller/api.py:117-288). *)
Definition grun (mgr : manager) (ops : list gop) : gst := fold_left gstep ops (ginit mgr).

End Act.
