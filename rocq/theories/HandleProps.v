(** C68 and C69: actors that are created, and handles that are passed on. A worker starts as [hinit] and takes any messages
    ([hrun C self body fco hinit ms]; [Dies] if an exception leaves its loop). [C] are the user's classes: constructors,
    methods, attributes. The log is as in WorkerProps. *)
From Verif Require Import Lib ValModel WorkerModel WorkerSpec WorkerCases HandleModel HandleSpec HandleThms HandleNet HandleCases.
From Coq Require Import Permutation.

(** Every creation received runs the constructor once, in the order in which they arrive, with the arguments of the message.
    Missing: references among the arguments (false, below), and runs in which the worker dies. *)
Theorem C68_built_once_partial : forall C self body fco,
  (forall f a k, no_refs_returned (body f a k)) -> no_refs_methods C ->
  forall ms s, no_refs_put ms -> hrun C self body fco hinit ms = Lives s -> ~ In (HM WCancel) ms ->
  map (fun x => (a_handle x, a_class x, a_args x, a_kwargs x)) (hmade s) = hcreates ms /\
  forall x, In x (hmade s) -> construct C (a_class x) (a_args x) (a_kwargs x) = Some (a_obj x).
Proof. exact built_once. Qed.
Print Assumptions C68_built_once_partial.

(** A worker that lives has built the object before it takes a call on it. *)
Theorem C68_built_before : forall C self body fco,
  (forall f a k, no_refs_returned (body f a k)) -> no_refs_methods C ->
  forall ms s, no_refs_put ms -> hrun C self body fco hinit ms = Lives s ->
  forall a h nd q b, ms = a ++ HCall h nd q :: b -> ~ In (HM WCancel) ms -> In h (created_handles a).
Proof. exact built_before. Qed.
Print Assumptions C68_built_before.

(** A body of a method that is entered is that of a call received. It acts on the object that the constructor gave for the call's
    handle, changed by exactly the bodies of that handle's calls entered before, in that order, and by nothing else; its
    arguments are those of the call with references replaced by their values. The name of the method is the value that the
    call's reference to the name had when the call was taken. *)
Theorem C68_methods : forall C self body fco,
  (forall f a k, no_refs_returned (body f a k)) -> no_refs_methods C ->
  forall ms s, no_refs_put ms -> hrun C self body fco hinit ms = Lives s -> NoDup (created_handles ms) ->
  exists name : nat -> nat,
  (forall a h nd q b, ms = a ++ HCall h nd q :: b -> ~ In (HM WCancel) ms ->
     exists s0, hrun C self body fco hinit a = Lives s0 /\ store (hw s0) nd = Some (VLeaf (name (length (hcalls a))))) /\
  forall l1 n m args kwargs l2, log (hw s) = l1 ++ EvRun n (CMethod m) args kwargs :: l2 ->
  exists h nd q c ca ck o l3, nth_error (hcalls ms) m = Some (h, nd, q) /\ q_id q = n /\
    In (h, c, ca, ck) (hcreates ms) /\ construct C c ca ck = Some o /\
    fill (stored l1) (q_args q) args /\ fill (stored l1) (q_kwargs q) kwargs /\ refs args = [] /\ refs kwargs = [] /\
    l2 = EvEnd n (snd (meth C (after C o (turns_of (hcalls ms) name h l1)) (name m) args kwargs)) :: l3.
Proof. exact methods_act. Qed.
Print Assumptions C68_methods.

(** The calls and tasks received are those that have ended, wait or run: none is lost or carried out twice.
    Missing: runs in which the worker dies (below). *)
Theorem C68_no_call_lost_partial : forall C self body fco,
  (forall f a k, no_refs_returned (body f a k)) -> no_refs_methods C ->
  forall ms s, no_refs_put ms -> hrun C self body fco hinit ms = Lives s -> ~ In (HM WCancel) ms ->
  Permutation (numbers ms)
    (ended (log (hw s)) ++ map q_id (pend (hw s) ++ apend (hw s)) ++ map (fun p => q_id (fst p)) (running (hw s))).
Proof. exact none_lost_calls. Qed.
Print Assumptions C68_no_call_lost_partial.

Example C68_case : no_refs_methods counters /\ no_refs_put hms /\ NoDup (created_handles hms) /\
  exists s, hrun counters 2 xbody plainf hinit hms = Lives s /\ ready (hw s) = false /\
    results_in (log (hw s)) = [(2, RVal (VLeaf 101)); (3, RVal (VLeaf 7)); (1, RVal (VLeaf 17))].
Proof. exact c68_case. Qed.

(** A reference among the constructor's arguments is not replaced by its value: the object is another one. *)
Theorem C68_reference_argument_refuted : exists C self body fco ms s d v h c,
  In (HM (WPut d v)) ms /\ In (HCreate h c (VList [VRef d]) (VDict [])) ms /\ hrun C self body fco hinit ms = Lives s /\
  construct C c (VList [VRef d]) (VDict []) <> construct C c (VList [v]) (VDict []) /\
  exists x, In x (hmade s) /\ a_handle x = h /\ Some (a_obj x) <> construct C c (VList [v]) (VDict []).
Proof. exact c68_reference. Qed.
Print Assumptions C68_reference_argument_refuted.

(** An exception in a constructor, or a call of a method that does not exist, ends the worker. *)
Theorem C68_raising_constructor_refuted : exists C self body fco h c args kwargs,
  construct C c args kwargs = None /\ hrun C self body fco hinit [HCreate h c args kwargs] = Dies DInit.
Proof. exact c68_raises. Qed.
Print Assumptions C68_raising_constructor_refuted.

Theorem C68_missing_method_refuted : exists C self body fco h c args kwargs nd n q o,
  construct C c args kwargs = Some o /\ has C o n = false /\
  hrun C self body fco hinit [HM (WPut nd (VLeaf n)); HCreate h c args kwargs; HCall h nd q] = Dies DAttr.
Proof. exact c68_missing. Qed.
Print Assumptions C68_missing_method_refuted.

(** C69. Any processes create actors, call them, pass handles on, in any order, and messages arrive in any order that keeps
    the order of those between two processes. If every call is made by the creator, or after the caller has heard,
    through any chain of messages, from the actor's worker since the actor was built, then no worker ends because it does not
    find an actor. Missing: calls by a process that has just been given the handle (false: the next theorem). *)
Theorem C69_licensed_calls_partial : forall C body fco ops w,
  licensed C body fco ops -> n_dead (nrun C body fco ops) w <> Some DHandle.
Proof. exact never_missing. Qed.
Print Assumptions C69_licensed_calls_partial.

Example C69_case : licensed counters xbody plainf nops1 /\
  (forall w, In w [0; 2; 3] -> n_dead (nrun counters xbody plainf nops1) w = None) /\
  results_in (log (hw (n_work (nrun counters xbody plainf nops1) 2))) = [(1, RVal (VLeaf 6)); (2, RVal (VLeaf 16))].
Proof. exact c69_case. Qed.

(** A process that has been given the handle calls a method and the actor's worker ends: the call is there before the creation. *)
Theorem C69_refuted : exists C body fco ops a p h nd n q b w,
  ops = a ++ NCall p h nd n q :: b /\ In h (n_knows (nrun C body fco a) p) /\
  n_dead (nrun C body fco a) w = None /\ n_dead (nrun C body fco ops) w = Some DHandle.
Proof. exact c69_refuted. Qed.
Print Assumptions C69_refuted.
