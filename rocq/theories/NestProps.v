(** C65: tasks that call the API themselves (put, remote calls, get, nested to any depth). *)
From Verif Require Import Lib ValModel WorkerModel WorkerSpec ClusterModel NestModel NestSpec NestThms NestCases.

(** Every get, of the main program or of a task, gives the values its references stand for, or an exception that one of
    them stands for. *)
Theorem C65_gets : forall workers body main ops, (forall f a k, refs a = [] -> refs k = [] -> refless (body f a k)) -> refless main ->
  let H := n_hist (nrun workers body main ops) in
  forall t ds r, In (t, HGet ds r) H ->
  match r with
  | GVals vs => Forall2 (means body H) ds vs
  | GRaise e => exists d, In d ds /\ means body H d (VExc e)
  | GError => True
  end.
Proof. intros workers body main ops B M H t ds r I. exact (gets_mean workers body main B M ops t ds r I). Qed.
Print Assumptions C65_gets.

(** A reference stands for one value. *)
Theorem C65_one_value : forall workers body main ops,
  let H := n_hist (nrun workers body main ops) in
  forall d v v', means body H d v -> means body H d v' -> v = v'.
Proof. intros workers body main ops H d v v'. exact (means_one workers body main ops d v v'). Qed.
Print Assumptions C65_one_value.

(** A task is entered at most once. *)
Theorem C65_once : forall workers body main ops,
  let H := n_hist (nrun workers body main ops) in
  forall t t' i, In (t, HStart i) H -> In (t', HStart i) H -> t = t'.
Proof. intros workers body main ops H t t' i. exact (started_once workers body main ops t t' i). Qed.
Print Assumptions C65_once.

(** The main program does what its text says. *)
Theorem C65_main : forall workers body main ops, (forall f a k, refs a = [] -> refs k = [] -> refless (body f a k)) -> refless main ->
  exists a, follows main (trace (n_hist (nrun workers body main ops)) 0) a.
Proof. intros workers body main ops B M. exact (main_text workers body main B M ops). Qed.
Print Assumptions C65_main.

(** Every other execution is that of a task that was submitted, with the function and the arguments that the references
    stand for; it does what the body says, or raises the exception among its arguments. *)
Theorem C65_tasks : forall workers body main ops, (forall f a k, refs a = [] -> refs k = [] -> refless (body f a k)) -> refless main ->
  let H := n_hist (nrun workers body main ops) in
  forall t, t <> 0 -> trace H t <> [] ->
  exists t' dest q fd f args kwargs l rest a, In (t', HSubmit dest q) H /\ q_fn q = FRef fd /\ means body H fd f /\
    fill (means body H) (q_args q) args /\ fill (means body H) (q_kwargs q) kwargs /\ refs args = [] /\ refs kwargs = [] /\
    trace H t = HStart (q_id q) :: l ++ rest /\
    match failed_arg args kwargs with
    | Some e => l = [] /\ a = ARet (RExc e)
    | None => follows (body f args kwargs) l a
    end /\ (rest = [] \/ exists r, a = ARet r /\ rest = [HEnd r]).
Proof. intros workers body main ops B M H t. exact (task_text workers body main B M ops t). Qed.
Print Assumptions C65_tasks.

(** outer(5) = inner(5) + 1, inner(x) = x * 2: the get in the task gives 10, that of the main program 11. *)
Example C65_case : (forall f a k, refs a = [] -> refs k = [] -> refless (nbody f a k)) /\ refless nmain /\
  In (1, HGet [(2, 1)] (GVals [VLeaf 10])) (n_hist ncase) /\ In (0, HGet [(0, 2)] (GVals [VLeaf 11])) (n_hist ncase) /\
  trace (n_hist ncase) 2 <> [].
Proof.
  split; [exact nbody_ok|]. split; [exact nmain_ok|]. rewrite nested_hist. split; [simpl; tauto|]. split; [simpl; tauto|discriminate].
Qed.
