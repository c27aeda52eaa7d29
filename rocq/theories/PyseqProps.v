(** C41, C54: the sequential backend. A program is any sequence of API calls; [qrun ... ops = (st, h)]: after
    them the backend is in state [st] and the history (calls with their results, latest first) is [h].
    [outcome h d] is what the direct call behind the reference [d] returns or raises, [state h a] the state of
    the object behind the actor [a] after direct method calls. *)
From Verif Require Import Lib ValModel PyseqModel PyseqSpec PyseqProofs PyseqCases.

Theorem C41_get_partial : forall body cbody mbody item, no_exception_values body mbody item ->
  forall ops st h d, qrun body cbody mbody item qinit [] ops = (st, h) -> legal h -> puts_clean h ->
  In d (returned h) ->
  match outcome body cbody mbody item h d with
  | Some (Ret v) => qstep body cbody mbody item st (QGet (VRef d)) = (st, OVal v)
  | Some (Exn e) => qstep body cbody mbody item st (QGet (VRef d)) = (st, ORaise e)
  | None => False
  end.
Proof. exact get_direct. Qed.
Print Assumptions C41_get_partial.

(** A list: all values in order, or the first exception. *)
Theorem C41_get_list_partial : forall body cbody mbody item, no_exception_values body mbody item ->
  forall ops st h ds, qrun body cbody mbody item qinit [] ops = (st, h) -> legal h -> puts_clean h ->
  incl ds (returned h) ->
  match all_ok (map (outcome body cbody mbody item h) ds) with
  | Some (inl vs) => qstep body cbody mbody item st (QGetMany (map VRef ds)) = (st, OVals vs)
  | Some (inr e) => qstep body cbody mbody item st (QGetMany (map VRef ds)) = (st, ORaise e)
  | None => False
  end.
Proof. exact gets_direct. Qed.
Print Assumptions C41_get_list_partial.

(** A submission raises exactly the first exception among its arguments, and then calls nothing. *)
Theorem C41_submit_raises_partial : forall body cbody mbody item, no_exception_values body mbody item ->
  forall ops st h f args kw n e, qrun body cbody mbody item qinit [] ops = (st, h) -> legal h -> puts_clean h ->
  known h (QSubmit f args kw n false) ->
  (snd (qstep body cbody mbody item st (QSubmit f args kw n false)) = ORaise e <->
   all_ok (map (argument body cbody mbody item h) (args ++ map snd kw)) = Some (inr e)).
Proof. exact submit_raises. Qed.
Print Assumptions C41_submit_raises_partial.

(** Every call returns new references. *)
Theorem C41_refs_fresh_partial : forall body cbody mbody item, no_exception_values body mbody item ->
  forall ops st h o st' out, qrun body cbody mbody item qinit [] ops = (st, h) -> legal h -> puts_clean h ->
  known h o -> (forall v, o = QPut v -> is_exc v = false) -> qstep body cbody mbody item st o = (st', out) ->
  forall d, In d (returned [(o, out)]) -> ~ In d (returned h).
Proof.
  exact (fun body cbody mbody item NE ops st h o st' out H L P K C S d I =>
    refs_fresh body cbody mbody item NE ops st h o st' out H L P K C S d
      (match in_app_or _ _ _ I with or_introl J => J | or_intror J => match J with end end)).
Qed.
Print Assumptions C41_refs_fresh_partial.

(** wait: the first [n] references are ready (all are: they were computed when they were made). *)
Theorem C41_wait : forall body cbody mbody item st l n st' ready not_ready,
  qstep body cbody mbody item st (QWait l n) = (st', OWait ready not_ready) ->
  st' = st /\ ready ++ not_ready = l /\ length ready = Nat.min n (length l).
Proof. exact wait_partition. Qed.
Print Assumptions C41_wait.

(** Without the hypothesis: a function that returns an exception object. *)
Theorem C41_returned_exception_refuted : exists body cbody mbody item ops d v e,
  let (st, h) := qrun body cbody mbody item qinit [] ops in
  legal h /\ puts_clean h /\ In d (returned h) /\
  outcome body cbody mbody item h d = Some (Ret v) /\
  snd (qstep body cbody mbody item st (QGet (VRef d))) = ORaise e.
Proof. exact exc_returned_raised. Qed.
Print Assumptions C41_returned_exception_refuted.

(** Submissions are not deferred: the exception of an argument's task is raised by the submission. *)
Theorem C41_raised_by_get_only_refuted : exists body cbody mbody item ops f args e,
  no_exception_values body mbody item /\
  let (st, h) := qrun body cbody mbody item qinit [] ops in
  legal h /\ puts_clean h /\ known h (QSubmit f args [] 1 false) /\
  snd (qstep body cbody mbody item st (QSubmit f args [] 1 false)) = ORaise e.
Proof. exact submission_raises. Qed.
Print Assumptions C41_raised_by_get_only_refuted.

(** Actors: the object of an actor is in the state direct method calls would leave it in, whatever was called
    on other actors; with C41_get_partial the results of its methods are those of the direct calls. *)
Theorem C54_actor_partial : forall body cbody mbody item, no_exception_values body mbody item ->
  forall ops st h a, qrun body cbody mbody item qinit [] ops = (st, h) -> legal h -> puts_clean h ->
  nth_error (q_actors st) a = state body cbody mbody item h a.
Proof. exact actor_direct. Qed.
Print Assumptions C54_actor_partial.

(** The same call by call, for every program and whatever values it uses. An actor starts in the state its constructor
    returned, and the other actors stay as they are ... *)
Theorem C54_made : forall body cbody mbody item st c args kw reserve a,
  snd (qstep body cbody mbody item st (QActor c args kw reserve)) = OActor a <->
  reserve = false /\ a = length (q_actors st) /\ exists s, cbody c args kw = Ret s /\
    q_actors (fst (qstep body cbody mbody item st (QActor c args kw reserve))) = q_actors st ++ [s].
Proof. exact actor_made. Qed.
Print Assumptions C54_made.

(** ... a method whose arguments can be read is called once, on the state the calls before it left; its state afterwards is
    the actor's, its result or exception is what the reference gives (an exception that is returned is raised too, see
    C41_returned_exception_refuted), and no other actor changes ... *)
Theorem C54_called : forall body cbody mbody item st a m args kw n s vs ks,
  nth_error (q_actors st) a = Some s ->
  Forall2 (arg_value body cbody mbody item st) args vs ->
  Forall2 (arg_value body cbody mbody item st) (map snd kw) ks ->
  let st' := fst (qstep body cbody mbody item st (QCall a m args kw n)) in
  nth_error (q_actors st') a = Some (snd (mbody m s vs (combine (map fst kw) ks))) /\
  (forall b, b <> a -> nth_error (q_actors st') b = nth_error (q_actors st) b) /\
  (n = 1 -> exists d, snd (qstep body cbody mbody item st (QCall a m args kw n)) = ORef d /\
     snd (qstep body cbody mbody item st' (QGet (VRef d))) =
       match fst (mbody m s vs (combine (map fst kw) ks)) with
       | Ret (VExc e) | Exn e => ORaise e
       | Ret v => OVal v
       end).
Proof. exact actor_called. Qed.
Print Assumptions C54_called.

(** ... and nothing else changes an actor: no other API call, no creation that fails, no method call with an argument
    that cannot be read. *)
Theorem C54_kept : forall body cbody mbody item st o,
  match o with
  | QActor c args kw reserve => forall a, snd (qstep body cbody mbody item st o) <> OActor a
  | QCall a m args kw n => nth_error (q_actors st) a = None \/
      (forall vs, ~ Forall2 (arg_value body cbody mbody item st) (args ++ map snd kw) vs)
  | _ => True
  end -> q_actors (fst (qstep body cbody mbody item st o)) = q_actors st.
Proof. exact actor_kept. Qed.
Print Assumptions C54_kept.

Example C54_step_case : let st := fst (qrun xbody xcbody xmbody xitem qinit [] xprog) in
  nth_error (q_actors st) 1 = Some (VLeaf 21) /\
  Forall2 (arg_value xbody xcbody xmbody xitem st) [VRef (0, 9); VLeaf 4] [VLeaf 1; VLeaf 4] /\
  (forall vs, ~ Forall2 (arg_value xbody xcbody xmbody xitem st) [VRef (0, 5)] vs).
Proof. exact xprog_args. Qed.

Example C41_C54_case : no_exception_values xbody xmbody xitem /\
  let h := snd (qrun xbody xcbody xmbody xitem qinit [] xprog) in
  legal h /\ puts_clean h /\ length (returned h) = 10 /\
  map (outcome xbody xcbody xmbody xitem h) [(0, 3); (0, 4); (0, 5); (0, 6); (0, 8); (0, 9)] =
    [Some (Ret (VLeaf 9)); Some (Ret (VLeaf 19)); Some (Exn 8); Some (Ret (VLeaf 20)); Some (Exn 9); Some (Ret (VLeaf 1))] /\
  map (state xbody xcbody xmbody xitem h) [0; 1; 2] = [Some (VLeaf 20); Some (VLeaf 21); None] /\
  snd (qstep xbody xcbody xmbody xitem (fst (qrun xbody xcbody xmbody xitem qinit [] xprog))
         (QGetMany (map VRef [(0, 9); (0, 6)]))) = OVals [VLeaf 1; VLeaf 20] /\
  snd (qstep xbody xcbody xmbody xitem (fst (qrun xbody xcbody xmbody xitem qinit [] xprog))
         (QSubmit 0 [VLeaf 1; VRef (0, 5)] [(1, VRef (0, 7))] 1 false)) = ORaise 8.
Proof. exact (conj x_clean xprog_run). Qed.
