(** The MPI backend as a whole (ActModel) with wait.

    Added to ActModel: wait on the root (mpi/core/controller/api.py:436-505, CtrlModel), the WAIT message to the
    monitor of the root and its answer (monitor/loop.py:204-213,130-159, MonModel). While the root is in wait it
    executes nothing else. Simplifications: those of ActModel; the regular_cleanup at the end of wait (505) is a
    cleanup the root may try at any time. *)
From Verif Require Import Lib ValModel ShmModel PushModel WorkerModel WorkerSpec MonModel MonSpec CtrlModel
  ClusterModel ActModel.

(** How a call of wait ended: (references, num_returns), ready and the rest; or a KeyError (api.py:499-500). *)
Inductive wsight :=
| WGave (ds : list dataid) (n : Z) (ready rest : list dataid)
| WFailed (ds : list dataid) (n : Z).

(** v_ask: WAIT messages under way to the monitor; v_ans: answers under way to the root. v_wait: the call of wait in
    progress, its references and num_returns, and the references found ready locally. The last two are not in the code:
    calls of wait so far, and how those that are over ended. The message of controller/api.py:483-488 and its answer
    (489-492, monitor/loop.py:100-159). *)
Record vst := {
  v_g : gst;
  v_ask : list (list dataid * Z);
  v_ans : list (list dataid * list dataid);
  v_wait : option (list dataid * Z * list dataid);
  v_calls : list (list dataid * Z);
  v_seen : list wsight
}.

(** ActModel's start with no wait in progress (controller/api.py:436-505). *)
Definition vinit (mgr : manager) : vst :=
  {| v_g := ginit mgr; v_ask := []; v_ans := []; v_wait := None; v_calls := []; v_seen := [] |}.

(** The state of the cluster with another state of the monitor (monitor/loop.py:188-213). *)
Definition set_mon (c : cst) (m : mst) : cst :=
  {| c_push := c_push c; c_vals := c_vals c; c_tasks := c_tasks c; c_want := c_want c; c_ids := c_ids c;
     c_left := c_left c; c_exc := c_exc c; c_work := c_work c; c_dead := c_dead c; c_chan := c_chan c;
     c_done := c_done c; c_mon := m; c_prog := c_prog c; c_seen := c_seen c; c_out := c_out c; c_in := c_in c |}.

(** The answers to wait among the monitor's new events. Those sent by WaitHandler (monitor/loop.py:130-159). *)
Definition new_answers (m m' : mst) : list (list dataid * list dataid) := answers (skipn (length (mlog m)) (mlog m')).

Section Wait.
Variable workers : list rank.
Variable body : val -> val -> val -> result.
Variable mbody : list call -> call -> result.
Variable is_async : callee -> bool.
Notation gstep := (gstep workers body mbody is_async).

(** VOp: a step of ActModel. VWait: the root calls wait. VAsk: the monitor takes a WAIT message. VAns: the root receives the
    monitor's answer. controller/api.py:436-505, monitor/loop.py:204-213. *)
Inductive vop := VOp (o : gop) | VWait (ds : list dataid) (n : Z) | VAsk | VAns.

(** The operations of the root process, which wait in controller/api.py:489-492 blocks. *)
Definition is_root (o : gop) : bool := match o with GRoot _ => true | _ => false end.

(** api.py:461-495: what is held here is ready; the rest is asked for. *)
Definition start_wait (v : vst) (ds : list dataid) (n : Z) : vst :=
  match wait_local (c_vals (g_c (v_g v))) ds n with
  | WReady r nr =>
      {| v_g := v_g v; v_ask := v_ask v; v_ans := v_ans v; v_wait := None; v_calls := v_calls v ++ [(ds, n)];
         v_seen := v_seen v ++ [WGave ds n r nr] |}
  | WAsk r nr p =>
      {| v_g := v_g v; v_ask := v_ask v ++ [(nr, p)]; v_ans := v_ans v; v_wait := Some (ds, n, r);
         v_calls := v_calls v ++ [(ds, n)]; v_seen := v_seen v |}
  end.

(** controller/api.py:436-505 (VWait, VAns), monitor/loop.py:204-213 (VAsk) and 197-203 with 130-159 (the answers that a
    step of ActModel brings about). *)
Definition vstep (v : vst) (o : vop) : vst :=
  match o with
  | VOp o =>
      match v_wait v, is_root o with
      | Some _, true => v
      | _, _ =>
          let g := gstep (v_g v) o in
          {| v_g := g; v_ask := v_ask v; v_ans := v_ans v ++ new_answers (c_mon (g_c (v_g v))) (c_mon (g_c g));
             v_wait := v_wait v; v_calls := v_calls v; v_seen := v_seen v |}
      end
  | VWait ds n =>
      match v_wait v, c_left (g_c (v_g v)) with
      | None, 0 => start_wait v ds n
      | _, _ => v
      end
  | VAsk =>
      match v_ask v with
      | [] => v
      | (ds, n) :: rest =>
          let m := c_mon (g_c (v_g v)) in
          let m' := match mon_step (mon_cfg workers) m (MWait ds n) with Some m' => m' | None => m end in
          {| v_g := {| g_c := set_mon (g_c (v_g v)) m'; g_prog := g_prog (v_g v) |};
             v_ask := rest; v_ans := v_ans v ++ new_answers m m'; v_wait := v_wait v; v_calls := v_calls v;
             v_seen := v_seen v |}
      end
  | VAns =>
      match v_ans v, v_wait v with
      | a :: rest, Some (ds, n, r0) =>
          {| v_g := v_g v; v_ask := v_ask v; v_ans := rest; v_wait := None; v_calls := v_calls v;
             v_seen := v_seen v ++ [match wait_end ds r0 a with Some (r, nr) => WGave ds n r nr | None => WFailed ds n end] |}
      | _, _ => v
      end
  end.

(** Any history of the whole (controller/api.py:436-505, monitor/loop.py:188-213). *)
Definition vrun (mgr : manager) (ops : list vop) : vst := fold_left vstep ops (vinit mgr).

End Wait.
