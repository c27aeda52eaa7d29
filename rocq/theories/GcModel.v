(** Model of the garbage collector of a process: core/backends/mpi/core/controller/garbage_collector.py:33-144.

    References die at any moment (collect is called from MpiDataID.__del__), also in the middle of
    regular_cleanup: [early] are those that die after the length of the list was checked and before the
    list is serialised (line 60), [late] those that die between that and the clear (line 138). The clock
    (time.perf_counter) counts in microseconds. Sending is modelled by recording the list and the ranks it goes to. *)
From Verif Require Import Lib.

(** The attributes of GarbageCollector (controller/garbage_collector.py:33-45), and what it has sent. *)
Record gst := {
  g_counter : nat;                               (* _cleanup_counter *)
  g_time : Z;                                    (* _timestamp *)
  g_list : list dataid;                          (* _cleanup_list *)
  g_tasks : nat;                                 (* _task_counter *)
  g_out : list (list dataid * list rank)         (* cleanup requests sent *)
}.

(** __init__ (controller/garbage_collector.py:33-45). *)
Definition ginit : gst :=
  {| g_counter := 1; g_time := 0; g_list := []; g_tasks := 0; g_out := [] |}.

(** controller/garbage_collector.py:37. *)
Definition CLEANUP_THRESHOLD := 5.
(** controller/garbage_collector.py:42. *)
Definition LIST_THRESHOLD := 10.
(** One second (controller/garbage_collector.py:38), in microseconds. *)
Definition TIME_THRESHOLD : Z := 1000000.

(** The methods of GarbageCollector (controller/garbage_collector.py:71-144). *)
Inductive gop :=
| GTask                                          (* increment_task_counter (71-79) *)
| GDead (d : dataid)                             (* collect (81-92) *)
| GCleanup (now : Z) (executed : nat) (later : Z) (early late : list dataid).   (* regular_cleanup *)

Section Gc.
Variable self : rank.
Variables workers monitors : list rank.

(** The receivers in _send_cleanup_request (controller/garbage_collector.py:60-61). *)
Definition cleanup_targets : list rank :=
  filter (fun r => negb (Nat.eqb r self)) (workers ++ monitors).

(** regular_cleanup (controller/garbage_collector.py:94-144): [now] and [later] are the two readings of the clock,
    [executed] the monitor's answer. *)
Definition regular_cleanup (g : gst) (now : Z) (executed : nat) (later : Z) (early late : list dataid) : gst :=
  if Nat.ltb LIST_THRESHOLD (length (g_list g)) then
    if Nat.eqb (g_counter g mod CLEANUP_THRESHOLD) 0 then
      if (TIME_THRESHOLD <? now - g_time g)%Z then
        let l := g_list g ++ early in
        if Nat.eqb executed (g_tasks g)
        then {| g_counter := S (g_counter g); g_time := later; g_list := []; g_tasks := g_tasks g;
                g_out := g_out g ++ [(l, cleanup_targets)] |}
        else {| g_counter := g_counter g; g_time := g_time g; g_list := l ++ late; g_tasks := g_tasks g;
                g_out := g_out g |}
      else {| g_counter := g_counter g; g_time := g_time g; g_list := g_list g ++ early ++ late;
              g_tasks := g_tasks g; g_out := g_out g |}
    else {| g_counter := S (g_counter g); g_time := g_time g; g_list := g_list g ++ early ++ late;
            g_tasks := g_tasks g; g_out := g_out g |}
  else {| g_counter := g_counter g; g_time := g_time g; g_list := g_list g ++ early ++ late;
          g_tasks := g_tasks g; g_out := g_out g |}.

(** One call of a method (controller/garbage_collector.py:71-144). *)
Definition gstep (g : gst) (o : gop) : gst :=
  match o with
  | GTask => {| g_counter := g_counter g; g_time := g_time g; g_list := g_list g; g_tasks := S (g_tasks g);
                g_out := g_out g |}
  | GDead d => {| g_counter := g_counter g; g_time := g_time g; g_list := g_list g ++ [d];
                  g_tasks := g_tasks g; g_out := g_out g |}
  | GCleanup now executed later early late => regular_cleanup g now executed later early late
  end.

(** Any history of calls on one GarbageCollector (controller/garbage_collector.py:33-144). *)
Definition grun (ops : list gop) : gst := fold_left gstep ops ginit.
End Gc.
