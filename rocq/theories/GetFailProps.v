(** C95: programs that go on after a get that failed (MPI). *)
From Verif Require Import Lib ValModel WorkerModel WorkerSpec ClusterModel NestModel NestSpec PickCases GetFailModel GetFailSpec GetFailProofs GetFailCases.

(** Whatever cannot be unpickled and whenever signals come: every get gives the values its references stand for, or an exception
    that one of them stands for, or fails. *)
Theorem C95_gets : forall workers body loads main ops, (forall f a k, refs a = [] -> refs k = [] -> refless (body f a k)) -> refless main ->
  let H := n_hist (zrun workers body loads main ops) in
  forall t ds r, In (t, HGet ds r) H ->
  match r with
  | GVals vs => Forall2 (means body H) ds vs
  | GRaise e => exists d, In d ds /\ means body H d (VExc e)
  | GError => True
  end.
Proof. intros workers body loads main ops B M H t ds r I. exact (z_gets workers body loads main B M ops t ds r I). Qed.
Print Assumptions C95_gets.

(** A reference stands for one value; a task is entered at most once. *)
Theorem C95_one_value : forall workers body loads main ops,
  let H := n_hist (zrun workers body loads main ops) in
  (forall d v v', means body H d v -> means body H d v' -> v = v') /\
  (forall t t' i, In (t, HStart i) H -> In (t', HStart i) H -> t = t').
Proof. intros workers body loads main ops H. exact (conj (z_one workers body loads main ops) (z_once workers body loads main ops)). Qed.
Print Assumptions C95_one_value.

(** The main program does what its text says. *)
Theorem C95_main : forall workers body loads main ops, (forall f a k, refs a = [] -> refs k = [] -> refless (body f a k)) -> refless main ->
  exists a, follows main (trace (n_hist (zrun workers body loads main ops)) 0) a.
Proof. intros workers body loads main ops B M. exact (z_main workers body loads main B M ops). Qed.
Print Assumptions C95_main.

(** The values that the main program gets were put by itself or can be unpickled: trying again does not help. *)
Theorem C95_never : forall workers body loads main ops, (forall f a k, refs a = [] -> refs k = [] -> refless (body f a k)) -> refless main ->
  let H := n_hist (zrun workers body loads main ops) in
  forall ds vs, In (0, HGet ds (GVals vs)) H -> Forall2 (fun d v => In (0, HPut d v) H \/ loads v = true) ds vs.
Proof. intros workers body loads main ops B M H ds vs I. exact (z_never workers body loads main B M ops ds vs I). Qed.
Print Assumptions C95_never.

(** Without signals and with values that can be unpickled, nothing changes: what is proved of NestModel holds. *)
Theorem C95_undisturbed_partial : forall workers body loads main ops, undisturbed loads ops ->
  zrun workers body loads main ops = nrun workers body main (plain ops).
Proof. exact z_plain. Qed.
Print Assumptions C95_undisturbed_partial.

(** Refuted: a get fails only if one of its own references is to blame. Here the get of two references fails since one cannot be
    unpickled; the next get, of a third whose value is there and fine, takes the other answer and fails, too. *)
Theorem C95_stale_refuted : exists workers body loads main ops, (forall f a k, refs a = [] -> refs k = [] -> refless (body f a k)) /\ refless main /\
  ~ In ZSignal ops /\
  let H := n_hist (zrun workers body loads main ops) in
  exists before x y z v t, H = before ++ [(0, HGet [x; y] GError); (0, HGet [z] GError)] /\ z <> x /\ z <> y /\
    means body H z v /\ loads v = true /\ In (t, HEnd (RVal v)) before.
Proof. exact stale. Qed.
Print Assumptions C95_stale_refuted.

(** Refuted: a get that a signal interrupts leaves the next one alone. All values can be unpickled; the answer to the interrupted
    get is taken by the next one, which fails. *)
Theorem C95_signal_refuted : exists workers body main ops, (forall f a k, refs a = [] -> refs k = [] -> refless (body f a k)) /\ refless main /\
  let H := n_hist (zrun workers body (fun _ => true) main ops) in
  exists before x z v t, H = before ++ [(0, HGet [x] GError); (0, HGet [z] GError)] /\ z <> x /\
    means body H z v /\ In (t, HEnd (RVal v)) before.
Proof. exact signalled. Qed.
Print Assumptions C95_signal_refuted.

(** Refuted: a get that is tried again fails again or succeeds. The value cannot be unpickled; the second get waits for ever,
    whatever happens (but for a signal), because the owner does not send the value again. *)
Theorem C95_retry_refuted : exists workers body loads main ops, (forall f a k, refs a = [] -> refs k = [] -> refless (body f a k)) /\ refless main /\
  ~ In ZSignal ops /\
  let H := n_hist (zrun workers body loads main ops) in
  exists x e t, means body H x (VExc e) /\ loads (VExc e) = false /\ In (t, HEnd (RExc e)) H /\ In (0, HGet [x] GError) H /\
    forall more, ~ In ZSignal more -> main_gets (zrun workers body loads main (ops ++ more)) [x].
Proof. exact again. Qed.
Print Assumptions C95_retry_refuted.

(** A get that is interrupted and tried again gives the value. *)
Example C95_case : (forall f a k, refs a = [] -> refs k = [] -> refless (kbody f a k)) /\ refless good_again /\
  In (0, HGet [(0, 1)] GError) (n_hist (zrun [2] kbody (fun _ => true) good_again z4)) /\
  In (0, HGet [(0, 1)] (GVals [VLeaf 5])) (n_hist (zrun [2] kbody (fun _ => true) good_again z4)) /\
  means kbody (n_hist (zrun [2] kbody (fun _ => true) good_again z4)) (0, 1) (VLeaf 5).
Proof. exact z4_case. Qed.

(** Steps without signals. *)
Example C95_undisturbed_case : undisturbed (fun _ => true) z5 /\
  In (0, HGet [(0, 1)] (GVals [VLeaf 5])) (n_hist (zrun [2] kbody (fun _ => true) good_again z5)).
Proof. exact z5_case. Qed.
