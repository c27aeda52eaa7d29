(** What a worker does, read off its log of events. *)
From Verif Require Import Lib ValModel WorkerModel.

(** The value v was stored for the reference d: it was received, or a task produced it. *)
Definition stored (l : list wev) (d : dataid) (v : val) : Prop :=
  In (EvIn (WPut d v)) l \/ In (EvStore d v) l.

(** [fill S v v']: v' is v with references replaced by values that S gives for them. References
    may remain; everything else, and the shape, is the same. *)
Inductive fill (S : dataid -> val -> Prop) : val -> val -> Prop :=
| fill_ref d x : S d x -> fill S (VRef d) x
| fill_keep d : fill S (VRef d) (VRef d)
| fill_leaf n : fill S (VLeaf n) (VLeaf n)
| fill_exc e : fill S (VExc e) (VExc e)
| fill_list l l' : Forall2 (fill S) l l' -> fill S (VList l) (VList l')
| fill_tuple l l' : Forall2 (fill S) l l' -> fill S (VTuple l) (VTuple l')
| fill_dict l l' :
    Forall2 (fun a b => fst a = fst b /\ fill S (snd a) (snd b)) l l' -> fill S (VDict l) (VDict l').

Definition received (l : list wev) : list request :=
  flat_map (fun e => match e with EvIn (WExec q) | EvIn (WActor q) => [q] | _ => [] end) l.

Definition ended (l : list wev) : list nat :=
  flat_map (fun e => match e with EvEnd n _ => [n] | _ => [] end) l.

Definition started (l : list wev) : list nat :=
  flat_map (fun e => match e with EvRun n _ _ _ => [n] | _ => [] end) l.

(** The requests for data received, and the answers sent. *)
Definition asked (l : list wev) : list (dataid * rank) :=
  flat_map (fun e => match e with EvIn (WGet s d _) => [(d, s)] | _ => [] end) l.

Definition answered (l : list wev) : list (dataid * rank) :=
  flat_map (fun e => match e with EvPut s d _ _ => [(d, s)] | _ => [] end) l.

Definition did_rank_dec (p q : dataid * rank) : {p = q} + {p <> q}.
Proof. decide equality; [apply Nat.eq_dec | apply did_dec]. Defined.

(** The owner last told for a reference. *)
Definition told_owner (l : list wev) (d : dataid) : option rank :=
  fold_left (fun o e => match e with
                        | EvIn (WOwner x r) => if did_eqb x d then Some r else o
                        | EvIn (WClean ds) => if did_in d ds then None else o
                        | _ => o end) l None.

(** The reference has a value here now. *)
Definition available (l : list wev) (d : dataid) : bool :=
  fold_left (fun b e => match e with
                        | EvIn (WPut x _) | EvStore x _ => if did_eqb x d then true else b
                        | EvIn (WClean ds) => if did_in d ds then false else b
                        | _ => b end) l false.

(** A request for the reference's value has been sent and the value has not come yet. *)
Definition outstanding (l : list wev) (d : dataid) : bool :=
  fold_left (fun b e => match e with
                        | EvGet _ x => if did_eqb x d then true else b
                        | EvIn (WPut x _) => if did_eqb x d then false else b
                        | _ => b end) l false.

(** All references in a request's arguments. *)
Definition qrefs (q : request) : list dataid := refs (q_args q) ++ refs (q_kwargs q).

(** Neither the end of a coroutine, nor CLEANUP or CANCEL. *)
Definition plain (m : wmsg) : Prop :=
  match m with WFinish _ | WCancel | WClean _ => False | _ => True end.

(** No reference inside the values a worker receives or computes (values contain references only
    wrapped, as objects that are not looked into). *)
Definition no_refs_received (ms : list wmsg) : Prop := forall d v, In (WPut d v) ms -> refs v = [].
Definition no_refs_returned (r : result) : Prop :=
  match r with RVal v => refs v = [] | RExc _ => True end.

(** The method calls made so far. *)
Definition calls_of (l : list wev) : list call :=
  flat_map (fun e => match e with
                     | EvRun _ (CMethod m) a k => [{| c_method := m; c_args := a; c_kwargs := k |}]
                     | _ => [] end) l.

(** What a request calls: the function stored for its reference, or a method. *)
Definition callee_of (l : list wev) (q : request) (c : callee) : Prop :=
  match q_fn q with
  | FRef d => exists f, stored l d f /\ c = CFun f
  | FMethod m => c = CMethod m
  end.

(** What a body gives, after the events l. *)
Definition body_result (body : val -> val -> val -> result) (mbody : list call -> call -> result)
  (l : list wev) (c : callee) (args kwargs : val) : result :=
  match c with
  | CFun f => body f args kwargs
  | CMethod m => mbody (calls_of l) {| c_method := m; c_args := args; c_kwargs := kwargs |}
  end.

(** The positional and keyword arguments of a call. *)
Definition arguments (args kwargs : val) : list val := elements args ++ elements kwargs.

(** q does not need a result of q'. *)
Definition independent (q q' : request) : Prop :=
  forall d, In d (qrefs q) -> ~ In d (out_ids (q_out q')).

(** The tasks, and the actor calls, among messages. *)
Definition execs (ms : list wmsg) : list request :=
  flat_map (fun m => match m with WExec q => [q] | _ => [] end) ms.
Definition actors (ms : list wmsg) : list request :=
  flat_map (fun m => match m with WActor q => [q] | _ => [] end) ms.

(** No request of l needs a result of one of l'. *)
Definition apart (l l' : list request) : Prop := forall q q', In q l -> In q' l' -> independent q q'.

(** Every multi-output request got enough values. *)
Definition enough (o : outputs) (r : result) : Prop :=
  match o, r with
  | OMany ds, RVal v => exists vs, iterate v = Some vs /\ length ds <= length vs
  | _, _ => True
  end.

Definition all_enough (l : list wev) : Prop :=
  forall n r q, In (EvEnd n r) l -> In q (received l) -> q_id q = n -> enough (q_out q) r.

(** The result can be stored. *)
Definition deliverable (o : outputs) (r : result) : Prop :=
  match o, r with
  | ONone, RExc _ => False
  | OMany _, RVal v => iterate v <> None
  | _, _ => True
  end.

Definition requests (ms : list wmsg) : list request :=
  flat_map (fun m => match m with WExec q | WActor q => [q] | _ => [] end) ms.

(** The results of every request can be stored. *)
Record safe (body : val -> val -> val -> result) (mbody : list call -> call -> result)
  (ms : list wmsg) : Prop := {
  safe_out : forall q, In q (requests ms) -> q_out q <> ONone;
  safe_fun : forall q d f a k, In q (requests ms) -> q_fn q = FRef d -> In (WPut d f) ms ->
    deliverable (q_out q) (body f a k);
  safe_meth : forall q m h a k, In q (requests ms) -> q_fn q = FMethod m ->
    deliverable (q_out q) (mbody h {| c_method := m; c_args := a; c_kwargs := k |});
  safe_ids : forall q q' d, In q (requests ms) -> In q' (requests ms) -> q_fn q = FRef d ->
    ~ In d (out_ids (q_out q'))
}.

(** Everything a request needs has been announced before it. *)
Definition announced (ms : list wmsg) : Prop :=
  forall a m b q, ms = a ++ m :: b -> (m = WExec q \/ m = WActor q) ->
  (forall d, In d (qrefs q) -> (exists v, In (WPut d v) a) \/ (exists r, In (WOwner d r) a)) /\
  (forall d, q_fn q = FRef d -> exists f, In (WPut d f) a).

(** The completion reports sent to the monitor. *)
Definition reports (l : list wev) : list (list dataid) :=
  flat_map (fun e => match e with EvDone ds => [ds] | _ => [] end) l.

(** d is an output of a task that ended normally, with enough values for all its outputs. *)
Definition succeeded (l : list wev) (d : dataid) : Prop :=
  exists n v q, In (EvEnd n (RVal v)) l /\ In q (received l) /\ q_id q = n /\
    enough (q_out q) (RVal v) /\ In d (out_ids (q_out q)).
