(** Vocabulary for actors that are created and whose handles are passed around. *)
From Verif Require Import Lib ValModel WorkerModel WorkerSpec HandleModel.

(** Among the messages: the creations (handle, class, arguments, keyword arguments) and the calls. *)
Definition hcreates (ms : list hmsg) : list (dataid * nat * val * val) :=
  flat_map (fun m => match m with HCreate h c a k => [(h, c, a, k)] | _ => [] end) ms.
Definition hcalls (ms : list hmsg) : list (dataid * dataid * request) :=
  flat_map (fun m => match m with HCall h nd q => [(h, nd, q)] | _ => [] end) ms.

Definition created_handles (ms : list hmsg) : list dataid := map (fun p => fst (fst (fst p))) (hcreates ms).

(** The bodies of methods of h that were entered in l, in that order: name, arguments, keyword arguments. [calls] are the calls received,
    and [name] gives the method's name for each of them; EvRun's CMethod m is the m-th. *)
Definition turns_of (calls : list (dataid * dataid * request)) (name : nat -> nat) (h : dataid) (l : list wev)
  : list (nat * val * val) :=
  flat_map (fun e => match e with
                     | EvRun _ (CMethod m) a k =>
                         match nth_error calls m with
                         | Some (h', _, _) => if did_eqb h' h then [(name m, a, k)] else []
                         | None => [] end
                     | _ => [] end) l.

(** An object after some calls of its methods. *)
Definition after (C : classes) (o : obj C) (l : list (nat * val * val)) : obj C :=
  fold_left (fun o t => fst (meth C o (fst (fst t)) (snd (fst t)) (snd t))) l o.

(** The numbers of the tasks and calls among the messages. *)
Definition numbers (ms : list hmsg) : list nat :=
  flat_map (fun m => match m with
                     | HM (WExec q) => match q_fn q with FRef _ => [q_id q] | FMethod _ => [] end
                     | HCall _ _ q => [q_id q]
                     | _ => [] end) ms.

(** No method, and no function, returns a bare reference. *)
Definition no_refs_methods (C : classes) : Prop := forall o n a k, no_refs_returned (snd (meth C o n a k)).
(** No reference inside the values received. *)
Definition no_refs_put (ms : list hmsg) : Prop := forall d v, In (HM (WPut d v)) ms -> refs v = [].

(** Every call is made by the process that created the actor, or after that process has heard, through any chain of
    messages, from the actor's worker that the actor was built. *)
Definition licensed (C : classes) (body : val -> val -> val -> result) (fco : val -> bool) (ops : list nop) : Prop :=
  forall a p h nd n q b, ops = a ++ NCall p h nd n q :: b ->
  n_maker (nrun C body fco a) h = Some p \/ In h (n_built (nrun C body fco a) p).
