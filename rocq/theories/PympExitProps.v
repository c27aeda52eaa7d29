(** C93: functions that exit, in the multiprocessing backend. [yrun ... exits yinit [] ops = (y, h)]: the programs of PympModel, where
    [exits f args kwargs] tells which calls of functions end with an exception that is not an Exception. *)
From Verif Require Import Lib ValModel PyseqModel PyseqSpec PyseqCases PympModel PympSpec PympProofs PympCases PympExitModel PympExitSpec PympExitProofs PympExitCases.

(** The references that can be read give what direct calls give. *)
Theorem C93_pymp_read_partial : forall nw, 0 < nw ->
  forall body cbody mbody item iterable callable bytes dumps loads storable exits,
  plain_results body mbody bytes item -> pickle_ok callable bytes dumps loads -> forall ops y h d r,
  yrun nw body cbody mbody item iterable callable bytes dumps loads storable exits yinit [] ops = (y, h) -> legal h -> plain_puts bytes h ->
  handles_kept (fun l => y_p (fst (yrun nw body cbody mbody item iterable callable bytes dumps loads storable exits yinit [] l))) ops ->
  In d (returned h) -> pget bytes loads (y_p y) d = Look r -> outcome body cbody mbody item h d = Some r.
Proof.
  intros nw pos body cbody mbody item iterable callable bytes dumps loads storable exits PR PK ops y h d r.
  exact (reads nw pos body cbody mbody item iterable callable bytes dumps loads storable exits ops y h d r PR PK).
Qed.
Print Assumptions C93_pymp_read_partial.

(** A worker is gone only at a call of a function that exits for some arguments. *)
Theorem C93_pymp_gone : forall nw, 0 < nw -> forall body cbody mbody item iterable callable bytes dumps loads storable exits ops y h w,
  yrun nw body cbody mbody item iterable callable bytes dumps loads storable exits yinit [] ops = (y, h) -> y_gone y w = true ->
  exists t q f vs ks, p_queue (y_p y) w = t :: q /\ k_callee t = Fun f /\ exits f vs ks = true.
Proof. exact gone_why. Qed.
Print Assumptions C93_pymp_gone.

(** Missing: that only the call itself is lost. When no worker that is left can go on, every task has been run or is affected by the workers that are gone, and every
    reference has a value or is a result of a task that is affected. *)
Theorem C93_pymp_isolated_partial : forall nw, 0 < nw -> forall body cbody mbody item iterable callable bytes dumps loads storable exits ops y h,
  yrun nw body cbody mbody item iterable callable bytes dumps loads storable exits yinit [] ops = (y, h) -> legal h ->
  behaved body mbody item iterable storable ops ->
  handles_kept (fun l => y_p (fst (yrun nw body cbody mbody item iterable callable bytes dumps loads storable exits yinit [] l))) ops ->
  halted body mbody item iterable bytes loads storable y ->
  let bad w := y_gone y w = true in
  (forall w t, In (w, t) (p_log (y_p y)) -> In t (p_done (y_p y) w) \/ affected bad (p_log (y_p y)) w t) /\
  forall d, In d (returned h) -> (exists r, pget bytes loads (y_p y) d = Look r) \/
    exists w t, In (w, t) (p_log (y_p y)) /\ In d (k_out t) /\ affected bad (p_log (y_p y)) w t.
Proof. exact isolated. Qed.
Print Assumptions C93_pymp_isolated_partial.

(** The tasks given to a worker that is gone and not yet run are never run, and a get of their results never returns. *)
Theorem C93_pymp_lost : forall nw, 0 < nw -> forall body cbody mbody item iterable callable bytes dumps loads storable exits ops more y h y' h' w t,
  yrun nw body cbody mbody item iterable callable bytes dumps loads storable exits yinit [] ops = (y, h) ->
  yrun nw body cbody mbody item iterable callable bytes dumps loads storable exits yinit [] (ops ++ more) = (y', h') ->
  y_gone y w = true -> In (w, t) (p_log (y_p y)) -> ~ In t (p_done (y_p y) w) ->
  ~ In t (p_done (y_p y') w) /\ forall d, In d (k_out t) -> pget bytes loads (y_p y') d = Later.
Proof. exact lost. Qed.
Print Assumptions C93_pymp_lost.

(** A worker whose task waits, in its first argument, for such a result finishes nothing any more; its tasks' results are never there. *)
Theorem C93_pymp_stopped : forall nw, 0 < nw -> forall body cbody mbody item iterable callable bytes dumps loads storable exits ops more y h y' h' w t w1 t1 d r q,
  yrun nw body cbody mbody item iterable callable bytes dumps loads storable exits yinit [] ops = (y, h) ->
  yrun nw body cbody mbody item iterable callable bytes dumps loads storable exits yinit [] (ops ++ more) = (y', h') ->
  y_gone y w1 = true -> In (w1, t1) (p_log (y_p y)) -> ~ In t1 (p_done (y_p y) w1) -> In d (k_out t1) ->
  p_queue (y_p y) w = t :: q -> k_args t = VRef d :: r ->
  p_done (y_p y') w = p_done (y_p y) w /\ forall x d', In x (t :: q) -> In d' (k_out x) -> pget bytes loads (y_p y') d' = Later.
Proof. exact stopped. Qed.
Print Assumptions C93_pymp_stopped.

(** Two workers. The call that exits takes with it a call that was given to the same worker, one that waits for its result, and one given to the other worker after
    that, which has nothing to do with it. *)
Theorem C93_pymp_hang_refuted :
  behaved zbody zmbody xitem xiterable xstorable eprog /\ handles_kept (fun l => y_p (fst (erun l))) eprog /\ legal (snd (erun eprog)) /\
  (forall w, y_gone (fst (erun eprog)) w = Nat.eqb w 1) /\
  p_log (y_p (fst (erun eprog))) = [(0, etask 0 0 [VLeaf 3]); (1, elost); (0, ewaits); (1, ethere); (0, ebehind)] /\
  k_args ethere = [VLeaf 4] /\ k_args ebehind = [VLeaf 5] /\
  forall more w t, In (w, t) [(1, elost); (0, ewaits); (1, ethere); (0, ebehind)] ->
  let y := fst (erun (eprog ++ more)) in
  ~ In t (p_done (y_p y) w) /\ forall d, In d (k_out t) -> pget xbytes xloads (y_p y) d = Later.
Proof. exact (conj e_behaved (conj e_kept (conj e_legal (conj e_gone (conj e_log (conj eq_refl (conj eq_refl e_ever))))))). Qed.
Print Assumptions C93_pymp_hang_refuted.

(** There the first call has ended, and is not affected. *)
Example C93_pymp_case : plain_results zbody zmbody xbytes xitem /\ pickle_ok xcallable xbytes xdumps xloads /\ plain_puts xbytes (snd (erun eprog)) /\
  halted zbody zmbody xitem xiterable xbytes xloads xstorable (fst (erun eprog)) /\
  pget xbytes xloads (y_p (fst (erun eprog))) (0, 0) = Look (Ret (VLeaf 3)) /\
  p_queue (y_p (fst (erun eprog))) 0 = [ewaits; ebehind] /\
  ~ affected (fun w => y_gone (fst (erun eprog)) w = true) (p_log (y_p (fst (erun eprog)))) 0 (etask 0 0 [VLeaf 3]).
Proof. exact (conj z_plain (conj z_pickle (conj e_puts (conj e_halted (conj e_get (conj e_queue e_first)))))). Qed.
