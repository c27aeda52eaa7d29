(** What a user of wait relies on. *)
From Verif Require Import Lib ValModel ShmModel PushModel WorkerModel WorkerSpec MonModel MonSpec CtrlModel
  ClusterModel ClusterSpec ActModel ActSpec WaitModel.

(** The reference was put, or is an output of a task or call that has ended. *)
Definition finished (g : gst) (d : dataid) : Prop :=
  (exists v, In (GP (RPut d v)) (g_prog g)) \/
  exists dest q, In (dest, q) (gsubmitted (g_prog g)) /\ In d (out_ids (q_out q)) /\
    In (q_id q) (ended (log (c_work (g_c g) dest))).

(** The root holds the value, or the reference is an output of a task or call that has returned, with a value for
    each output. *)
Definition ended_well (g : gst) (d : dataid) : Prop :=
  c_vals (g_c g) d <> None \/
  exists dest q v, In (dest, q) (gsubmitted (g_prog g)) /\ In d (out_ids (q_out q)) /\
    In (EvEnd (q_id q) (RVal v)) (log (c_work (g_c g) dest)) /\ enough (q_out q) (RVal v).

(** No message of any kind is under way. *)
Definition settled (v : vst) : Prop :=
  idle (g_c (v_g v)) /\ (forall w, c_done (g_c (v_g v)) w = []) /\ v_ask v = [] /\ v_ans v = [].

(** The call of wait behind an outcome. *)
Definition call_of (x : wsight) : list dataid * Z :=
  match x with WGave ds n _ _ => (ds, n) | WFailed ds n => (ds, n) end.

Definition waiting (v : vst) : list (list dataid * Z) :=
  match v_wait v with Some (ds, n, _) => [(ds, n)] | None => [] end.

(** A reference the program may use: one put and not dropped, or an output of a task or call. *)
Definition usable (prog : list gprog) (d : dataid) : Prop :=
  (exists v, In (GP (RPut d v)) prog /\ ~ In (GP (RDrop d)) prog) \/
  exists dest q, In (dest, q) (gsubmitted prog) /\ In d (out_ids (q_out q)).

(** No task or call has raised an exception, or was given one. *)
Definition none_failed (g : gst) : Prop := forall w n e, ~ In (EvEnd n (RExc e)) (log (c_work (g_c g) w)).

(** Every task and call has ended. *)
Definition over (v : vst) : Prop := forall dest q, In (dest, q) (gsubmitted (g_prog (v_g v))) ->
  In (q_id q) (ended (log (c_work (g_c (v_g v)) dest))).
