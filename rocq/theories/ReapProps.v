(** C92: cleanups in programs whose tasks make calls themselves. *)
From Verif Require Import Lib ShmModel ValModel WorkerModel WorkerSpec ClusterModel NestModel NestSpec ReapModel ReapSpec ReapInv ReapCases.

(** Whatever cleanups are sent, and whenever they are taken: the gets that return give the values their references stand for, or
    an exception that one of them stands for. *)
Theorem C92_gets : forall workers body main, (forall f a k, refs a = [] -> refs k = [] -> refless (body f a k)) -> refless main ->
  forall mgr ops, let H := n_hist (k_n (krun workers body mgr main ops)) in
  forall t ds r, In (t, HGet ds r) H ->
  match r with
  | GVals vs => Forall2 (means body H) ds vs
  | GRaise e => exists d, In d ds /\ means body H d (VExc e)
  | GError => True
  end.
Proof. intros workers body main B M mgr ops H t ds r I. exact (gets_right workers body main B M mgr ops t ds r I). Qed.
Print Assumptions C92_gets.

(** A reference stands for one value. *)
Theorem C92_one_value : forall workers body main, (forall f a k, refs a = [] -> refs k = [] -> refless (body f a k)) -> refless main ->
  forall mgr ops, let H := n_hist (k_n (krun workers body mgr main ops)) in
  forall d v v', means body H d v -> means body H d v' -> v = v'.
Proof. intros workers body main B M mgr ops H d v v'. exact (one_value workers body main B M mgr ops d v v'). Qed.
Print Assumptions C92_one_value.

(** Missing: that it is none at all. Among the calls the sender has made, those that have not ended when it sends a cleanup are
    no more than the calls made in other processes. *)
Theorem C92_few_partial : forall workers body main, (forall f a k, refs a = [] -> refs k = [] -> refless (body f a k)) -> refless main ->
  forall mgr ops u, In u (k_sent (krun workers body mgr main ops)) ->
  (forall q, (exists p, In (p, q) (u_calls u)) <-> exists t dest, In (t, HSubmit dest q) (u_hist u)) /\
  forall L, NoDup L -> (forall q, In q L -> In (u_by u, q) (u_calls u) /\ ~ finished (u_hist u) q) -> length L <= length (others (u_by u) (u_calls u)).
Proof.
  intros workers body main B M mgr ops u I. split; [exact (calls_recorded workers body main B M mgr ops u I)|exact (open_few workers body main B M mgr ops u I)].
Qed.
Print Assumptions C92_few_partial.

(** Missing: the tasks that make calls. If no task makes calls, every call has ended when the main program sends a cleanup; so
    every call that uses an object named in a cleanup has ended, if the names are the sender's own references and the calls
    use references made by the main program. *)
Theorem C92_objects_partial : forall workers body main, (forall f a k, refs a = [] -> refs k = [] -> refless (body f a k)) -> refless main ->
  forall mgr ops, (forall f a k, refs a = [] -> refs k = [] -> callless (body f a k)) -> forall u, In u (k_sent (krun workers body mgr main ops)) ->
  (u_by u = 0 -> forall t dest q, In (t, HSubmit dest q) (u_hist u) -> finished (u_hist u) q) /\
  ((forall d, In d (u_names u) -> fst d = u_by u) -> (forall t dest q, In (t, HSubmit dest q) (u_hist u) -> forall d, In d (uses q) -> fst d = 0) ->
   forall t dest q d, In (t, HSubmit dest q) (u_hist u) -> In d (uses q) -> In d (u_names u) -> finished (u_hist u) q).
Proof.
  intros workers body main B M mgr ops C u I. split; [exact (main_calls workers body main B M mgr ops C u I)|exact (objects workers body main B M mgr ops C u I)].
Qed.
Print Assumptions C92_objects_partial.

(** Everything has ended and has been counted, and the main program tries a cleanup. It is sent if only the main program has made
    calls; it is not sent if some task has. *)
Theorem C92_when_ended_partial : forall workers body main, (forall f a k, refs a = [] -> refs k = [] -> refless (body f a k)) -> refless main ->
  forall mgr ops ds, let k := krun workers body mgr main ops in let H := n_hist (k_n k) in
  between k 0 = true -> k_done k = [] -> (forall p, n_dead (k_n k) p = false) ->
  (forall t dest q, In (t, HSubmit dest q) H -> finished H q) ->
  let k' := krun workers body mgr main (ops ++ [KAsk 0; KClean 0 ds]) in
  ((forall t dest q, In (t, HSubmit dest q) H -> t = 0) -> k_sent k' = k_sent k ++ [{| u_by := 0; u_names := ds; u_calls := k_calls k; u_hist := H |}]) /\
  (forall t dest q, In (t, HSubmit dest q) H -> t <> 0 -> k_sent k' = k_sent k).
Proof. intros workers body main B M mgr ops ds. cbn zeta. rewrite krun_more. exact (when_all_ended workers body main B M mgr ops ds). Qed.
Print Assumptions C92_when_ended_partial.

(** The main program calls 1, 2, and 3 with the result of 2, and gets the result of 3; 1 calls 4. When 1, 2 and 4 have been counted,
    a cleanup for the result of 2 is sent although 3, which uses it, has not started; 3 never starts, and get never returns. *)
Theorem C92_hang_refuted : exists workers body main mgr ops u q d,
  (forall f a k, refs a = [] -> refs k = [] -> refless (body f a k)) /\ refless main /\
  (forall f a k, refs a = [] -> refs k = [] -> closed [] [] (body f a k)) /\ closed [] [] main /\
  In u (k_sent (krun workers body mgr main ops)) /\ In d (u_names u) /\ u_by u = 0 /\
  In (0, HSubmit 3 q) (u_hist u) /\ In d (uses q) /\ ~ finished (u_hist u) q /\
  forall more, let k := krun workers body mgr main (ops ++ more) in ~ finished (n_hist (k_n k)) q /\ in_get (k_n k) 0.
Proof.
  exists [2; 3], rbody, rmain, (manager_init 0 0), rops, runsent, rcons, (0, 4).
  exact (conj rbody_ok (conj rmain_ok (conj rbody_closed (conj rmain_closed (conj rcase_in
    (conj (or_introl eq_refl) (conj eq_refl (conj rcase_submit (conj (or_intror (or_introl eq_refl)) (conj rcase_open' rcase_for_ever)))))))))).
Qed.
Print Assumptions C92_hang_refuted.

(** A program all of whose calls have ended and have been counted, and in which no cleanup is sent. *)
Theorem C92_reclaim_refuted : exists workers body main mgr ops,
  (forall f a k, refs a = [] -> refs k = [] -> refless (body f a k)) /\ refless main /\
  let k := krun workers body mgr main ops in
  between k 0 = true /\ k_done k = [] /\ (forall p, n_dead (k_n k) p = false) /\
  (forall t dest q, In (t, HSubmit dest q) (n_hist (k_n k)) -> finished (n_hist (k_n k)) q) /\
  forall ds, k_sent (krun workers body mgr main (ops ++ [KAsk 0; KClean 0 ds])) = [].
Proof.
  exists [2; 3], rbody, rmain, (manager_init 0 0), rended.
  exact (conj rbody_ok (conj rmain_ok ecase_never)).
Qed.
Print Assumptions C92_reclaim_refuted.

(** The cleanup of the result of 2 when 3 has ended: it is sent, worker 2 forgets the object, and get gives the value. *)
Example C92_case : (forall f a k, refs a = [] -> refs k = [] -> refless (qbody f a k)) /\ refless rmain /\
  (forall f a k, refs a = [] -> refs k = [] -> callless (qbody f a k)) /\
  k_sent qcase = [qsent] /\ u_by qsent = 0 /\ (forall d, In d (u_names qsent) -> fst d = u_by qsent) /\
  (forall t dest q, In (t, HSubmit dest q) (u_hist qsent) -> forall d, In d (uses q) -> fst d = 0) /\
  In (0, HSubmit 3 qcons) (u_hist qsent) /\ In (0, 4) (uses qcons) /\ In (0, 4) (u_names qsent) /\
  store (p_w (n_proc (k_n qcase) 2)) (0, 4) = None /\ In (0, HGet [(0, 5)] (GVals [VLeaf 5])) (n_hist (k_n qcase)).
Proof.
  exact (conj qbody_ok (conj rmain_ok (conj qbody_callless (conj qcase_sent (conj eq_refl (conj qcase_names (conj qcase_roots (conj qcase_submit
    (conj (or_intror (or_introl eq_refl)) (conj (or_introl eq_refl) (conj (proj1 qcase_forgot) qcase_get))))))))))).
Qed.

(** One call of the main program is open when the cleanup is sent; one call was made by another process. *)
Example C92_few_case : In runsent (k_sent rcase) /\ In (u_by runsent, rcons) (u_calls runsent) /\ ~ finished (u_hist runsent) rcons /\
  length (others (u_by runsent) (u_calls runsent)) = 1.
Proof. exact (conj rcase_in (conj rcase_call (conj rcase_open' rcase_others))). Qed.

(** Both parts of C92_when_ended_partial apply to some program. *)
Example C92_ended_case :
  (let k := krun [2; 3] qbody (manager_init 0 0) rmain qbefore in
   between k 0 = true /\ k_done k = [] /\ (forall p, n_dead (k_n k) p = false) /\
   (forall t dest q, In (t, HSubmit dest q) (n_hist (k_n k)) -> finished (n_hist (k_n k)) q) /\
   (forall t dest q, In (t, HSubmit dest q) (n_hist (k_n k)) -> t = 0)) /\
  between ecase 0 = true /\ k_done ecase = [] /\ (forall p, n_dead (k_n ecase) p = false) /\
  (forall t dest q, In (t, HSubmit dest q) (n_hist (k_n ecase)) -> finished (n_hist (k_n ecase)) q) /\
  (exists dest q, In (1, HSubmit dest q) (n_hist (k_n ecase))) /\ k_sent ecase = [].
Proof. exact (conj qbefore_ended ecase_ended). Qed.
