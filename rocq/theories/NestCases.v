(** Concrete programs with nested calls. *)
From Verif Require Import Lib ValModel WorkerModel WorkerSpec ClusterModel NestModel NestSpec.

(** outer(x): r = inner.remote(x); return get(r) + 1, and inner(x) = x * 2; function 2 raises exception 9; function 3 calls
    function 2 and gets its result. *)
Definition xcall (g : nat) (args : val) (k : gres -> act) : act :=
  APut (VLeaf g) (fun f => ASubmit f args (VDict []) 1 (fun ds => match ds with Some ds => AGet ds k | None => ARet (RExc 1) end)).

Definition xouter (args : val) : act :=
  xcall 1 args (fun r => match r with GVals [VLeaf y] => ARet (RVal (VLeaf (y + 1))) | GRaise e => ARet (RExc e) | _ => ARet (RExc 2) end).

Definition nbody (f args kwargs : val) : act :=
  match f, args with
  | VLeaf 0, _ => match args with VTuple [VLeaf x] => xouter (VTuple [VLeaf x]) | _ => ARet (RExc 3) end
  | VLeaf 1, VTuple [VLeaf x] => ARet (RVal (VLeaf (x * 2)))
  | VLeaf 2, _ => ARet (RExc 9)
  | VLeaf 3, _ => xcall 2 (VTuple []) (fun r => match r with GRaise e => ARet (RExc e) | _ => ARet (RVal (VLeaf 0)) end)
  | _, _ => ARet (RExc 3)
  end.

Lemma nbody_ok f a k : refs a = [] -> refs k = [] -> refless (nbody f a k).
Proof.
  intros _ _.
  assert (O : forall x, refless (xouter (VTuple [VLeaf x]))).
  { intros x. simpl. split; [reflexivity|]. intros d [ds|]; simpl; auto. intros [[|[n|e|r|l|l|l] [|w vs]]|e|]; simpl; auto. }
  unfold nbody. destruct f as [[|[|[|[|n]]]]|e|r|l|l|l]; simpl; auto.
  - destruct a as [n|e|r|l|[|[n|e|r|l|l|l] [|y l']]|l]; try exact Logic.I; exact (O _).
  - destruct a as [n|e|r|l|[|[n|e|r|l|l|l] [|y l']]|l]; simpl; auto.
  - split; [reflexivity|]. intros d [ds|]; simpl; auto. intros [vs|e|]; simpl; auto.
Qed.

(** The main program calls outer with a reference to 5, and gets the result. *)
Definition nmain : act :=
  APut (VLeaf 5) (fun x => xcall 0 (VTuple [VRef x]) (fun r => ARet (RVal (VLeaf 0)))).

Lemma nmain_ok : refless nmain.
Proof. simpl. split; [reflexivity|]. intros d. split; [reflexivity|]. intros e [ds|]; simpl; auto. Qed.

Definition nops : list nop :=
  [NRun 0 0; NRun 0 0; NRun 0 2; NRun 0 0;           (* put, put, submit to 2, get *)
   NTake 0 2; NTake 0 2; NTake 0 2;                  (* the function, the argument, the task *)
   NRun 2 0; NRun 2 3; NRun 2 0;                     (* put, submit to 3, get *)
   NTake 2 3; NTake 2 3; NRun 3 0; NTake 2 3;        (* the function, the task, its end, the request *)
   NReply 3 2; NRun 2 0; NTake 0 2; NReply 2 0].

Notation ncase := (nrun [2; 3] nbody nmain nops).

Example nested_hist : n_hist ncase =
  [(0, HPut (0, 0) (VLeaf 5)); (0, HPut (0, 1) (VLeaf 0));
   (0, HSubmit 2 {| q_id := 0; q_fn := FRef (0, 1); q_args := VTuple [VRef (0, 0)]; q_kwargs := VDict []; q_out := OOne (0, 2) |});
   (1, HStart 0); (1, HPut (2, 0) (VLeaf 1));
   (1, HSubmit 3 {| q_id := 1; q_fn := FRef (2, 0); q_args := VTuple [VLeaf 5]; q_kwargs := VDict []; q_out := OOne (2, 1) |});
   (2, HStart 1); (2, HEnd (RVal (VLeaf 10)));
   (1, HGet [(2, 1)] (GVals [VLeaf 10])); (1, HEnd (RVal (VLeaf 11)));
   (0, HGet [(0, 2)] (GVals [VLeaf 11]))].
Proof. vm_compute. reflexivity. Qed.
