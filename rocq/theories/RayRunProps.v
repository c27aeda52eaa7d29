(** C97: the Ray backend. [yrun ops]: the state after calls of the API and steps of Ray in any order; [y_hist]: the calls with what they
    returned, latest first; [outcome h d]: what the direct call behind the reference d returns or raises, [state h a]: the state of the
    object behind the actor a after direct calls of its methods, in the order of the calls (PyseqSpec). *)
From Verif Require Import Lib ValModel PyseqModel PyseqSpec PyseqCases RayRunModel RayRunSpec RayRunProofs RayRunCases.

(** What get returns or raises is what the direct call returns or raises, whenever and in whatever order Ray runs the tasks. *)
Theorem C97_read_partial : forall body cbody mbody iter wrong_number actor_died ops d r,
  let st := yrun body cbody mbody iter wrong_number actor_died ops in
  legal (y_hist st) -> actors_known (y_hist st) -> right_numbers body mbody iter (y_hist st) -> all_built cbody (y_hist st) ->
  yget st d = Some r -> outcome body cbody mbody (item_of iter) (y_hist st) d = Some r.
Proof. exact read. Qed.
Print Assumptions C97_read_partial.

(** With nothing left to run, each actor's object is what direct calls of its methods make of it. *)
Theorem C97_objects_partial : forall body cbody mbody iter wrong_number actor_died ops a,
  let st := yrun body cbody mbody iter wrong_number actor_died ops in
  legal (y_hist st) -> actors_known (y_hist st) -> right_numbers body mbody iter (y_hist st) -> all_built cbody (y_hist st) ->
  y_pend st = [] -> a < length (y_actors st) ->
  nth_error (y_actors st) a = Some (state body cbody mbody (item_of iter) (y_hist st) a).
Proof. exact objects. Qed.
Print Assumptions C97_objects_partial.

(** The history consists of the calls of the program, in order; each of them returned as many references as were asked for, all new. *)
Theorem C97_history : forall body cbody mbody iter wrong_number actor_died ops,
  let st := yrun body cbody mbody iter wrong_number actor_died ops in
  map fst (y_hist st) = rev (flat_map api_call ops).
Proof. exact history. Qed.
Print Assumptions C97_history.

Theorem C97_references : forall body cbody mbody iter wrong_number actor_died ops,
  let st := yrun body cbody mbody iter wrong_number actor_died ops in
  actors_known (y_hist st) ->
  NoDup (returned (y_hist st)) /\ forall o out, In (o, out) (y_hist st) -> length (outs_of out) = wanted o.
Proof. exact references. Qed.
Print Assumptions C97_references.

(** No call's function or method is entered twice. *)
Theorem C97_once : forall body cbody mbody iter wrong_number actor_died ops,
  let st := yrun body cbody mbody iter wrong_number actor_died ops in
  actors_known (y_hist st) -> NoDup (y_log st).
Proof. exact entered_once. Qed.
Print Assumptions C97_once.

(** No deadlock: if Ray can do nothing more, get waits for nothing; and it can always get there. *)
Theorem C97_complete : forall body cbody mbody iter wrong_number actor_died ops,
  let st := yrun body cbody mbody iter wrong_number actor_died ops in
  legal (y_hist st) -> actors_known (y_hist st) -> (forall i, ystep body cbody mbody iter wrong_number actor_died st (YRun i) = st) ->
  forall d, In d (returned (y_hist st)) -> exists r, yget st d = Some r.
Proof. exact complete. Qed.
Print Assumptions C97_complete.

Theorem C97_finishes : forall body cbody mbody iter wrong_number actor_died ops,
  let run := yrun body cbody mbody iter wrong_number actor_died in
  legal (y_hist (run ops)) -> actors_known (y_hist (run ops)) ->
  exists k, let st := run (ops ++ repeat (YRun 0) k) in
    y_hist st = y_hist (run ops) /\ y_pend st = [] /\ forall d, In d (returned (y_hist (run ops))) -> exists r, yget st d = Some r.
Proof. exact finishes. Qed.
Print Assumptions C97_finishes.

(** Without the condition on the number of results: a function returns three items for two references; direct calls (and the sequential
    backend) take the first two, on Ray both references give an exception. *)
Theorem C97_number_refuted : exists body cbody mbody iter wrong_number actor_died ops d e v,
  let st := yrun body cbody mbody iter wrong_number actor_died ops in
  legal (y_hist st) /\ actors_known (y_hist st) /\ all_built cbody (y_hist st) /\
  yget st d = Some (Exn e) /\ outcome body cbody mbody (item_of iter) (y_hist st) d = Some (Ret v).
Proof.
  exists three, xcbody, xmbody, no_iter, 30, 31, zops, (0, 0), 30, (VLeaf 1). split; [|split; [|split; [|split; reflexivity]]].
  - apply legalb_ok. reflexivity.
  - apply knownb_ok. reflexivity.
  - intros c args kw b out H. simpl in H. destruct H as [H|[]]. discriminate.
Qed.
Print Assumptions C97_number_refuted.

(** Without the condition on constructors: making the actor succeeds and its methods raise an exception of Ray, on the sequential backend
    making it raises the exception of the constructor. *)
Theorem C97_constructor_refuted : exists body cbody mbody iter wrong_number actor_died ops d e,
  let st := yrun body cbody mbody iter wrong_number actor_died ops in
  legal (y_hist st) /\ actors_known (y_hist st) /\ right_numbers body mbody iter (y_hist st) /\
  yget st d = Some (Exn actor_died) /\ e <> actor_died /\
  exists c args kw, hd_error ops = Some (YActor c args kw false) /\
    snd (qstep body cbody mbody (item_of iter) qinit (QActor c args kw false)) = ORaise e.
Proof.
  exists xbody, bad, xmbody, no_iter, 30, 31, bops, (0, 0), 4. split; [|split; [|split; [|split; [reflexivity|split; [discriminate|]]]]].
  - apply legalb_ok. reflexivity.
  - apply knownb_ok. reflexivity.
  - split.
    + intros f args kw n b out vs ks H. simpl in H. destruct H as [H|[H|[]]]; discriminate.
    + intros a m args kw n out s vs ks H. simpl in H. destruct H as [H|[H|[]]]; [|discriminate]. inversion H; subst. simpl. auto.
  - exists 0, [], []. split; reflexivity.
Qed.
Print Assumptions C97_constructor_refuted.

(** ** Cases *)

(** Ten references, actors, exceptions, tasks run out of order: the hypotheses hold in the middle of the run and values are there. *)
Example C97_read_partial_case :
  legal (y_hist (xyrun xyops)) /\ actors_known (y_hist (xyrun xyops)) /\ right_numbers xbody xmbody no_iter (y_hist (xyrun xyops)) /\
  all_built xcbody (y_hist (xyrun xyops)) /\
  map (fun i => yget (xyrun xyops) (0, i)) [2; 3; 4; 5; 9] = [Some (Ret (VLeaf 5)); Some (Ret (VLeaf 9)); None; Some (Exn 8); Some (Exn 9)] /\
  y_log (xyrun xyops) = [6; 8; 1; 2].
Proof. split; [exact xy_legal|]. split; [exact xy_known|]. split; [exact xy_numbers|]. split; [exact xy_built|]. split; reflexivity. Qed.

(** Later everything has been run. *)
Example C97_complete_case : y_pend (xyrun xyops') = [] /\ y_hist (xyrun xyops') = y_hist (xyrun xyops) /\
  y_actors (xyrun xyops') = [Some (VLeaf 20); Some (VLeaf 21)] /\ yget (xyrun xyops') (0, 6) = Some (Ret (VLeaf 20)).
Proof. vm_compute. auto. Qed.
