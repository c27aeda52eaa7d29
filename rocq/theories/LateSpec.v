(** C90: vocabulary. *)
From Verif Require Import Lib ShmModel DataIdModel TopoModel MonModel ShutModel ShutSpec LateModel.

(** Nothing can happen any more: no message can be taken by the process it is for, nobody goes on. (New objects, new packages and
    other operations of monitors do not count.) *)
Definition at_rest (c : scfg) (mon : rank -> rank) (st : lst) : Prop :=
  forall op, match op with
             | LMake _ _ | LSend _ _ _ | LShut (AOther _ _) => True
             | _ => lstep c mon st op = None
             end.

(** Shutdown is over: the main program goes on, and every worker and every monitor has left its loop. *)
Definition all_left (c : scfg) (st : lst) : Prop :=
  sroot (l_s st) = RGone /\ forall r, In r (s_workers c ++ s_monitors c) -> gone c (l_s st) r.

(** In the run [ops], the worker [w] has taken a package although it had taken CANCEL, of an object that was not in the memory of
    its machine. *)
Definition took_late (c : scfg) (mon : rank -> rank) (g : rank -> manager) (ops : list lop) (w : rank) : Prop :=
  exists ops1 i ops2 o d, ops = ops1 ++ LTake i :: ops2 /\
    nth_error (l_pkgs (lrun c mon g ops1)) i = Some (o, w, d) /\
    sworker (l_s (lrun c mon g ops1)) w = WkReady /\
    ~ In (mon w, d) (l_mem (lrun c mon g ops1)).
